(** Samples of a grid in other units (C155). *)
From Coq Require Import ZArith FunctionalExtensionality.
From Verif Require Import Base ModelLinAlg ModelKernels ModelKDE ModelInterp ModelResample ModelUtils ModelNd ModelSample SpecKDE SpecUtils SpecNd SpecSample SpecUnits SpecGridUnits.
From Verif Require Import ProofAffine ProofNd ProofNd2 ProofNested ProofPlot3 ProofUnits2 ProofCdfUnits ProofLaw ProofSample ProofSample3 ProofSample4 ProofSample7 ProofSample8.
Open Scope R_scope.
Notation length := List.length.

Lemma diff_unit s c l : diff (map (unit_of s c) l) = map (Rmult c) (diff l).
Proof.
  induction l as [|a [|b l] IH]; [reflexivity|reflexivity|]. cbn [map diff] in *. rewrite IH. f_equal. unfold unit_of. ring.
Qed.
Lemma vget_scaled c l b : vget (map (Rmult c) l) b = c * vget l b.
Proof. unfold vget. replace 0 with (c * 0) at 1 by ring. apply map_nth. Qed.
Lemma nth_grid s c es d : (d < length es)%nat -> nth d (grid_unit s c es) [] = map (unit_of (s d) (c d)) (nth d es []).
Proof. intros H. unfold grid_unit. rewrite (at_each_nth _ es 0 d [] []) by exact H. reflexivity. Qed.
Lemma vget_unit s c l b : (b < length l)%nat -> vget (map (unit_of s c) l) b = s + c * vget l b.
Proof. intros H. unfold vget. rewrite (nth_indep _ 0 (unit_of s c 0)) by (rewrite map_length; exact H). rewrite map_nth. reflexivity. Qed.
Lemma volume_unit s c es : forall idx i, (i + length idx <= length es)%nat ->
  volume_from (grid_unit s c es) (seq 0 (length es)) i idx = rprod (length idx) (fun k => c (i + k)%nat) * volume_from es (seq 0 (length es)) i idx.
Proof.
  induction idx as [|b idx IH]; intros i H; [cbn; ring|]. cbn [length] in H. cbn [volume_from]. rewrite IH by lia. cbn [length]. rewrite rprod_shift.
  unfold width_at. assert (E : existsb (Nat.eqb i) (seq 0 (length es)) = true) by (apply existsb_exists; exists i; split; [apply in_seq; lia|apply Nat.eqb_refl]). rewrite E.
  rewrite nth_grid, diff_unit, vget_scaled by lia. rewrite Nat.add_0_r. replace (fun k => c (i + S k)%nat) with (fun k => c (S i + k)%nat) by (extensionality k; f_equal; lia). ring.
Qed.
Local Notation same_nd := SpecNd.same_nda.
Lemma rprod_ne n (c : nat -> R) : (forall i, 0 < c i) -> rprod n c <> 0.
Proof. intros H. pose proof (rprod_pos' n c H). lra. Qed.
Lemma grid_lens s c es : map (@length R) (grid_unit s c es) = map (@length R) es.
Proof. exact (lens_unit s c es 0). Qed.
Lemma grid_len s c es : length (grid_unit s c es) = length es.
Proof. apply at_each_length. Qed.
Lemma nth_len s c es k : length (nth k (grid_unit s c es) []) = length (nth k es []).
Proof. change O with (@length R []). rewrite <- !(map_nth (@length R)), grid_lens. reflexivity. Qed.
Lemma mass_unit s c es dens : (forall i, 0 < c i) -> length es = length (shp dens) ->
  res_rel same_nd (trapz_dens_to_mass dens es None) (trapz_dens_to_mass (density_unit c dens) (grid_unit s c es) None).
Proof.
  intros Hc Hl. unfold trapz_dens_to_mass. rewrite grid_lens, grid_len. cbn [density_unit map_nd shp]. destruct (negb (nats_eqb (map (@length R) es) (shp dens))) eqn:E; [reflexivity|].
  unfold all_axes. rewrite grid_len. destruct (negb (forallb (fun ii => Nat.ltb ii (length es)) (seq 0 (length es)))); [reflexivity|].
  replace (existsb (fun ii => Nat.eqb (length (nth ii (grid_unit s c es) [])) 0) (seq 0 (length es))) with (existsb (fun ii => Nat.eqb (length (nth ii es [])) 0) (seq 0 (length es)))
    by (f_equal; extensionality ii; rewrite nth_len; reflexivity).
  destruct (existsb _ (seq 0 (length es))); [reflexivity|]. cbn [res_rel]. 
  assert (ES : shp_mass (grid_unit s c es) (seq 0 (length es)) = shp_mass es (seq 0 (length es))).
  { unfold shp_mass. rewrite grid_len. apply map_ext. intros ii. rewrite nth_len. reflexivity. }
  split; [cbn; symmetry; exact ES|]. cbn [shp at_]. intros idx Hi. apply ProofNd.inb_length in Hi. unfold shp_mass in Hi. rewrite map_length, seq_length in Hi. f_equal. apply asum_ext. intros bits _.
  destruct (skip_corner _ bits); [reflexivity|]. rewrite (volume_unit s c es idx 0) by lia. cbn [Nat.add density_unit map_nd at_]. rewrite Hi, <- Hl. change (fun k => c k) with c. unfold Rdiv. field. apply rprod_ne, Hc.
Qed.
Lemma same_flat a b : same_nd a b -> flatten_nd a = flatten_nd b.
Proof.
  intros [H1 H2]. unfold flatten_nd. rewrite <- H1. apply map_ext_in. intros idx Hin. apply H2. revert idx Hin. generalize (shp a). clear.
  induction l as [|n l IH]; intros idx Hin; cbn in *; [destruct Hin as [<-|[]]; constructor|]. apply in_flat_map in Hin. destruct Hin as [i [Hi Hin]]. apply in_map_iff in Hin. destruct Hin as [r [<- Hr]].
  apply in_seq in Hi. constructor; [lia|apply IH, Hr].
Qed.
Lemma same_total a b : same_nd a b -> asum (shp a) (at_ a) = asum (shp b) (at_ b).
Proof. intros [H1 H2]. rewrite <- H1. apply asum_ext, H2. Qed.
Lemma check_unit s c es dens f mass : check_grid (EList (grid_unit s c es)) (map_nd f dens) mass = do e <- check_grid (EList es) dens mass ;; Ok (grid_unit s c e).
Proof.
  unfold check_grid. cbn [bind fst snd map_nd shp]. rewrite grid_len, grid_lens. destruct (negb (Nat.eqb (length es) (length (shp dens)))); [reflexivity|].
  destruct (negb (nats_eqb (map (@length R) es) (shp dens))); [reflexivity|]. destruct mass as [m|]; [|reflexivity]. destruct (orb _ _); reflexivity.
Qed.
Lemma check_es es dens mass e : check_grid (EList es) dens mass = Ok e -> e = es /\ shp dens = map (@length R) es.
Proof.
  unfold check_grid. cbn [bind fst snd]. destruct (negb (Nat.eqb (length es) (length (shp dens)))); [discriminate|]. destruct (nats_eqb (map (@length R) es) (shp dens)) eqn:E; cbn [negb]; [|discriminate].
  apply nats_eqb_true in E. destruct mass as [m|]; [destruct (orb _ _); [discriminate|]|]; intros [= <-]; split; [reflexivity|symmetry; exact E|reflexivity|symmetry; exact E].
Qed.
Lemma norm_factor k dens d flats : k <> 0 -> norm_grads (map_nd (fun v => v / k) dens) d flats = norm_grads dens d flats.
Proof.
  intros Hk. unfold norm_grads. assert (E : mean_nd (map_nd (fun v => v / k) dens) = mean_nd dens / k).
  { unfold mean_nd. cbn [map_nd shp at_]. replace (fun idx => at_ dens idx / k) with (fun idx => at_ dens idx * / k) by (extensionality i; reflexivity). rewrite asum_scal_r. unfold Rdiv. ring. }
  rewrite E. destruct (Reqb_spec (mean_nd dens) 0) as [H0|H0].
  - rewrite H0. destruct (Reqb_spec (0 / k) 0) as [|H]; [reflexivity|]. exfalso. apply H. unfold Rdiv. ring.
  - destruct (Reqb_spec (mean_nd dens / k) 0) as [H|_].
    + exfalso. apply H0. apply (Rmult_eq_reg_r (/ k)); [|apply Rinv_neq_0_compat, Hk]. rewrite Rmult_0_l. exact H.
    + f_equal. unfold map_nd. cbn [shp at_]. do 2 f_equal. extensionality idx. field. split; assumption.
Qed.
Lemma bins_inb G flats bins : mapM (unravel_index (g_bins G)) flats = Ok bins -> length bins = length flats /\ forall b, In b bins -> SpecNd.inb (g_bins G) b.
Proof.
  intros H. split; [exact (mapM_length _ _ _ H)|]. apply mapM_Ok_Forall2 in H. induction H as [|f b fs bs Hfb _ IH]; intros x Hx; [destruct Hx|]. destruct Hx as [<-|Hx]; [|apply IH, Hx].
  unfold unravel_index in Hfb. destruct (Nat.ltb_spec f (size_of_shape (g_bins G))) as [Hf|]; [|discriminate]. injection Hfb as <-. apply unravel_inb, Hf.
Qed.
Lemma mapM_same {A B} (f g : A -> res B) l : (forall x, f x = g x) -> mapM f l = mapM g l.
Proof. intros H. induction l as [|x l IH]; [reflexivity|]. cbn. rewrite H, IH. reflexivity. Qed.
Lemma sample_unit s c G G' nsamp interp rs rand : g_edges G' = grid_unit s c (g_edges G) -> asum (shp (g_mass G')) (at_ (g_mass G')) = asum (shp (g_mass G)) (at_ (g_mass G)) ->
  g_bins G' = g_bins G -> g_bins G = map (fun n => (n - 1)%nat) (map (@length R) (g_edges G)) -> g_idx G' = g_idx G -> g_csum G' = g_csum G -> g_sdens G' = None -> g_sdens G = None ->
  (forall d flats, norm_grads (g_dens G') d flats = norm_grads (g_dens G) d flats) ->
  res_rel (positions_unit s c) (sg_sample G nsamp interp rs rand) (sg_sample G' nsamp interp rs rand).
Proof.
  intros Ee Em Eb Ebs Ei Ec Es' Es Eg. unfold sg_sample. rewrite Es', Es, Ee, Em, Eb, Ei, Ec, grid_len.
  set (z := trunc_int _). destruct (Z.ltb z 0); [reflexivity|]. set (n := Z.to_nat z).
  destruct (mapM (random_bin (g_idx G) (g_csum G)) (np_sort (map (rand 0%nat) (seq 0 n)))) as [flats|e] eqn:EF; cbn [bind]; [|reflexivity].
  assert (Hfl : length flats = n) by (rewrite (mapM_length _ _ _ EF), np_sort_length, map_length, seq_length; reflexivity).
  destruct (mapM (unravel_index (g_bins G)) flats) as [bins|e] eqn:EB; cbn [bind]; [|reflexivity]. destruct (bins_inb G flats bins EB) as [Hbl Hbi].
  rewrite (mapM_same (fun d => norm_grads (g_dens G') d flats) (fun d => norm_grads (g_dens G) d flats)) by (intros d; apply Eg).
  destruct (if interp then mapM (fun d => norm_grads (g_dens G) d flats) (seq 0 (length (g_edges G))) else Ok []) as [grads|e]; cbn [bind andb res_rel]; [|reflexivity].
  split; [reflexivity|]. split; [reflexivity|]. cbn [fst snd shp at_ nth]. intros d j Hd Hj. rewrite nth_grid by exact Hd. 
  assert (Hb : (nth d (nth j bins []) 0 < length (nth d (g_edges G) []))%nat).
  { assert (Hin : SpecNd.inb (g_bins G) (nth j bins [])) by (apply Hbi, nth_In; lia). apply (ProofNd.inb_nth _ _ d) in Hin; [|rewrite Ebs, !map_length; exact Hd]. rewrite Ebs, map_map in Hin.
    pose proof (map_nth (fun x : list R => (length x - 1)%nat) (g_edges G) [] d) as HN. cbn [length Nat.sub] in HN. rewrite HN in Hin. lia. }
  unfold intrabin_interp. rewrite diff_unit, vget_scaled, vget_unit by exact Hb. destruct interp; ring.
Qed.
Theorem grid_units ord edges dens mass smass s c nsamp interp rs rand : (forall i, 0 < c i) ->
  res_rel (positions_unit s c)
    (do G <- Sample_Grid ord (EList edges) dens mass None smass ;; sg_sample G nsamp interp rs rand)
    (do G <- Sample_Grid ord (EList (grid_unit s c edges)) (density_unit c dens) mass None smass ;; sg_sample G nsamp interp rs rand).
Proof.
  intros Hc. unfold Sample_Grid, make_grid. unfold density_unit at 1. rewrite check_unit. destruct (check_grid (EList edges) dens mass) as [es|e] eqn:EC; cbn [bind]; [|reflexivity].
  apply check_es in EC. destruct EC as [-> Esh]. assert (Hl : length edges = length (shp dens)) by (rewrite Esh, map_length; reflexivity).
  assert (HM : res_rel same_nd (match mass with Some m => Ok m | None => trapz_dens_to_mass dens edges None end) (match mass with Some m => Ok m | None => trapz_dens_to_mass (density_unit c dens) (grid_unit s c edges) None end)).
  { destruct mass as [m|]; [split; intros; reflexivity|]. apply mass_unit; assumption. }
  destruct (match mass with Some m => Ok m | None => trapz_dens_to_mass dens edges None end) as [m|e], (match mass with Some m => Ok m | None => trapz_dens_to_mass (density_unit c dens) (grid_unit s c edges) None end) as [m'|e']; cbn [res_rel] in HM; try contradiction; cbn [bind]; [|exact HM].
  destruct smass as [sm|]; cbn [bind]; (unfold data_to_cumulative; rewrite <- (same_flat _ _ HM);
  destruct (flatten_nd m) as [|v vs] eqn:EF; cbn [bind]; [reflexivity|]; cbn [fst snd];
  apply sample_unit; cbn [g_edges g_mass g_bins g_idx g_csum g_sdens g_dens]; try reflexivity;
  [symmetry; apply same_total, HM|rewrite Esh; reflexivity|intros d flats; apply norm_factor, rprod_ne, Hc]).
Qed.
(** The unit of the density does not matter if the masses are given. *)
Theorem density_factor ord ea dens m smass k nsamp interp rs rand : k <> 0 ->
  (do G <- Sample_Grid ord ea (map_nd (fun v => v / k) dens) (Some m) None smass ;; sg_sample G nsamp interp rs rand)
  = (do G <- Sample_Grid ord ea dens (Some m) None smass ;; sg_sample G nsamp interp rs rand).
Proof.
  intros Hk. unfold Sample_Grid, make_grid. change (check_grid ea (map_nd (fun v => v / k) dens) (Some m)) with (check_grid ea dens (Some m)). destruct (check_grid ea dens (Some m)) as [es|e]; cbn [bind]; [|reflexivity].
  destruct smass as [sm|]; cbn [bind]; (destruct (data_to_cumulative ord m) as [ic|e]; cbn [bind]; [|reflexivity]; unfold sg_sample; cbn [g_edges g_mass g_bins g_idx g_csum g_sdens g_dens g_smass map_nd shp];
  destruct (Z.ltb _ 0); [reflexivity|]; destruct (mapM (random_bin _ _) _) as [flats|e]; cbn [bind]; [|reflexivity]; destruct (mapM (unravel_index _) _) as [bins|e]; cbn [bind]; [|reflexivity];
  (rewrite (mapM_same (fun d => norm_grads (mkA (shp dens) (fun idx => at_ dens idx / k)) d flats) (fun d => norm_grads dens d flats)) by (intros d; apply (norm_factor k dens d flats Hk))); reflexivity).
Qed.

Lemma one_bin idx : SpecNd.inb [1%nat] idx -> idx = [0%nat].
Proof. intros Hi. inversion Hi as [|i n idx' sh' Hlt Hr]; subst. inversion Hr; subst. assert (i = 0)%nat by lia. subst. reflexivity. Qed.
Lemma one_case e1 y sd : 0 < e1 -> 0 <= y -> shp sd = [2%nat] -> grid_case (EList [[0; e1]]) [[0; e1]] (mkA [2%nat] (fun _ => y)) (Some (vec [1])) (Some sd) None (vec [1]).
Proof.
  intros He Hy Hsd. split; [left; reflexivity|]. split; [apply two_edges; exact He|]. split; [reflexivity|]. split; [intros idx _; exact Hy|]. split; [split; reflexivity|].
  split; [intros idx Hi; rewrite (one_bin idx Hi); cbn; lra|]. split; [intros sd' C; injection C as <-; rewrite Hsd; reflexivity|intros sm C; discriminate C].
Qed.
Lemma one_scalar e1 y sd : 0 < e1 -> 0 <= y -> shp sd = [2%nat] -> exists G vals l,
  Sample_Grid some_argsort (EList [[0; e1]]) (mkA [2%nat] (fun _ => y)) (Some (vec [1])) (Some sd) None = Ok G
  /\ sg_sample G (Some 1) true None (fun _ _ => 0) = Ok (vals, Some l) /\ nth 0 l 0 = e1 * ((at_ sd [0%nat] + at_ sd [1%nat]) / 2) - (at_ sd [1%nat] - at_ sd [0%nat]) / 2.
Proof.
  intros He Hy Hsd.
  destruct (scalar_values some_argsort _ _ _ _ sd (vec [1]) (Some 1) true None (fun _ _ => 0) 1 some_argsort_ok (one_case e1 y sd He Hy Hsd)) as (G & vals & l & E1 & E2 & L & Hl).
  - unfold total. cbn. lra.
  - unfold wants. cbn. lra.
  - intros d j _ _. lra.
  - discriminate.
  - exists G, vals, l. split; [exact E1|]. split; [exact E2|]. destruct (Hl 0%nat ltac:(lia)) as (idx & Hi & _ & _ & Hv). rewrite Hv. rewrite (one_bin idx Hi). unfold bin_volume, corner_mean, side_mean. cbn. lra.
Qed.
(** Scalars: the step towards the position in the bin has the unit of the density. *)
Theorem scalar_units_refuted : exists ord edges dens m sd s c rand G G' vals vals' l l', is_argsort ord /\ (forall i, 0 < c i)
  /\ grid_case (EList edges) edges dens (Some m) (Some sd) None m /\ unit_draws (length edges) 1 rand
  /\ Sample_Grid ord (EList edges) dens (Some m) (Some sd) None = Ok G /\ sg_sample G (Some 1) true None rand = Ok (vals, Some l)
  /\ Sample_Grid ord (EList (grid_unit s c edges)) (density_unit c dens) (Some m) (Some (density_unit c sd)) None = Ok G' /\ sg_sample G' (Some 1) true None rand = Ok (vals', Some l')
  /\ nth 0 l 0 <> nth 0 l' 0.
Proof.
  destruct (one_scalar 1 1 (vec [0; 1]) ltac:(lra) ltac:(lra) eq_refl) as (G & vals & l & E1 & E2 & E3).
  assert (Ep : rprod 1 (fun _ => 2) = 2) by (cbn; ring).
  destruct (one_scalar 2 (1 / 2) (density_unit (fun _ => 2) (vec [0; 1])) ltac:(lra) ltac:(lra) eq_refl) as (G' & vals' & l' & F1 & F2 & F3).
  exists some_argsort, [[0; 1]], (mkA [2%nat] (fun _ => 1)), (vec [1]), (vec [0; 1]), (fun _ => 0), (fun _ => 2), (fun _ _ => 0), G, G', vals, vals', l, l'.
  split; [apply some_argsort_ok|]. split; [intros; lra|]. split; [apply one_case; [lra|lra|reflexivity]|]. split; [intros d j _ _; lra|]. split; [exact E1|]. split; [exact E2|].
  split.
  - rewrite <- F1. f_equal.
    + unfold grid_unit, unit_of. cbn. do 4 f_equal; [lra|f_equal; lra].
    + unfold density_unit, map_nd. cbn [shp at_ length]. rewrite Ep. reflexivity.
  - split; [exact F2|]. rewrite E3, F3. cbn. lra.
Qed.
Lemma ex_grid_units : exists r r', (do G <- Sample_Grid some_argsort (EList [[0; 1; 3]]) (vec [1; 3; 1]) None None None ;; sg_sample G (Some 5) true None (fun _ _ => 1 / 3)) = Ok r
  /\ (do G <- Sample_Grid some_argsort (EList [[7 + 2 * 0; 7 + 2 * 1; 7 + 2 * 3]]) (density_unit (fun _ => 2) (vec [1; 3; 1])) None None None ;; sg_sample G (Some 5) true None (fun _ _ => 1 / 3)) = Ok r'
  /\ shp (fst r) = [1%nat; 5%nat] /\ forall j, (j < 5)%nat -> 0 <= at_ (fst r) [0%nat; j] <= 3 /\ at_ (fst r') [0%nat; j] = 7 + 2 * at_ (fst r) [0%nat; j].
Proof.
  destruct three_case as (m & (_ & H2 & H3 & H4 & H5 & H6 & H7) & S & V0 & V1). assert (T := three_total m S V0 V1).
  assert (HC : grid_case (EList [[0; 1; 3]]) [[0; 1; 3]] (vec [1; 3; 1]) None None None m) by (split; [left; reflexivity|]; repeat (split; [assumption|]); exact H7).
  destruct (samples_in_bins some_argsort _ _ _ _ _ _ m (Some 5) true None (fun _ _ => 1 / 3) 5 some_argsort_ok HC ltac:(lra) ltac:(unfold wants; cbn; lra) ltac:(intros d j _ _; lra)) as (G & vals & sc & E1 & E2 & E3 & E4).
  pose proof (grid_units some_argsort [[0; 1; 3]] (vec [1; 3; 1]) None None (fun _ => 7) (fun _ => 2) (Some 5) true None (fun _ _ => 1 / 3) ltac:(intros; lra)) as HR. rewrite E1 in HR. cbn [bind] in HR. rewrite E2 in HR.
  change (grid_unit (fun _ => 7) (fun _ => 2) [[0; 1; 3]]) with [[7 + 2 * 0; 7 + 2 * 1; 7 + 2 * 3]] in HR.
  destruct (do G <- Sample_Grid some_argsort (EList [[7 + 2 * 0; 7 + 2 * 1; 7 + 2 * 3]]) (density_unit (fun _ => 2) (vec [1; 3; 1])) None None None ;; sg_sample G (Some 5) true None (fun _ _ => 1 / 3)) as [r'|e] eqn:ER; [|contradiction].
  destruct HR as (_ & _ & HR). cbn [fst] in HR. rewrite E3 in HR. exists (vals, sc), r'. rewrite E1. split; [exact E2|]. split; [reflexivity|]. split; [exact E3|]. intros j Hj. cbn [fst]. split; [|apply HR; cbn; lia].
  destruct (E4 j Hj) as (idx & Hi & Hb & _). specialize (Hb 0%nat ltac:(cbn; lia)). unfold column in Hb. inversion Hi as [|i n idx' sh' Hlt Hr]; subst. cbn in Hlt. destruct i as [|[|]]; cbn in Hb; [lra|lra|lia].
Qed.

Lemma Rmin_div a b k : 0 < k -> Rmin (a / k) (b / k) = Rmin a b / k.
Proof. intros Hk. pose proof (Rinv_0_lt_compat k Hk). unfold Rmin, Rdiv. destruct (Rle_dec (a * / k) (b * / k)), (Rle_dec a b); try reflexivity; exfalso; nra. Qed.
Lemma Rmax_div a b k : 0 < k -> Rmax (a / k) (b / k) = Rmax a b / k.
Proof. intros Hk. pose proof (Rinv_0_lt_compat k Hk). unfold Rmax, Rdiv. destruct (Rle_dec (a * / k) (b * / k)), (Rle_dec a b); try reflexivity; exfalso; nra. Qed.
Lemma Rltb_div a b k : 0 < k -> Rltb (a / k) (b / k) = Rltb a b.
Proof. intros Hk. pose proof (Rinv_0_lt_compat k Hk). unfold Rdiv. destruct (Rltb_spec (a * / k) (b * / k)), (Rltb_spec a b); try reflexivity; exfalso; nra. Qed.
Lemma centroid_unit s c k xl xr y1 y2 : 0 < c -> 0 < k -> centroid_1d (s + c * xl) (s + c * xr) (y1 / k) (y2 / k) = s + c * centroid_1d xl xr y1 y2.
Proof.
  intros Hc Hk. unfold centroid_1d. cbv zeta. rewrite Rmin_div, Rmax_div, Rltb_div by exact Hk. set (lo := Rmin y1 y2). set (hi := Rmax y1 y2).
  set (A := (xr - xl) * lo + / 2 * (xr - xl) * (hi - lo)).
  assert (E : (s + c * xr - (s + c * xl)) * (lo / k) + / 2 * (s + c * xr - (s + c * xl)) * (hi / k - lo / k) = c / k * A) by (unfold A; field; lra).
  rewrite E. assert (Hck : 0 < c / k) by (apply Rdiv_lt_0_compat; assumption).
  destruct (Reqb_spec A 0) as [HA|HA].
  - rewrite HA, Rmult_0_r. destruct (Reqb_spec 0 0) as [_|]; [|lra]. destruct (Rltb y2 y1); field.
  - destruct (Reqb_spec (c / k * A) 0) as [H|_]; [exfalso; apply HA; nra|].
    apply (Rmult_eq_reg_r (c / k * A)); [|nra]. unfold Rdiv at 1. rewrite Rmult_assoc, Rinv_l, Rmult_1_r by nra.
    replace ((s + c * (((xl + xr) / 2 * ((xr - xl) * lo) + ((if Rltb y2 y1 then xr else xl) + 2 / 3 * (xr - xl) * (if Rltb y2 y1 then - (1) else 1)) * (/ 2 * (xr - xl) * (hi - lo))) / A)) * (c / k * A))
      with (c / k * (s * A + c * ((xl + xr) / 2 * ((xr - xl) * lo) + ((if Rltb y2 y1 then xr else xl) + 2 / 3 * (xr - xl) * (if Rltb y2 y1 then - (1) else 1)) * (/ 2 * (xr - xl) * (hi - lo))))) by (field; split; lra).
    unfold A. destruct (Rltb y2 y1); field; lra.
Qed.
Lemma corner_factor k data ii side idx : corner_sum (map_nd (fun v => v / k) data) ii side idx = corner_sum data ii side idx / k.
Proof.
  unfold corner_sum. cbn [map_nd shp at_]. unfold Rdiv at 2. rewrite <- asum_scal_r. reflexivity.
Qed.
Lemma centroids_unit s c k es dens d idx : 0 < k -> (forall i, 0 < c i) -> shp dens = map (@length R) es -> (d < length es)%nat -> SpecNd.inb (map (fun n => (n - 1)%nat) (shp dens)) idx ->
  at_ (centroids (grid_unit s c es) (map_nd (fun v => v / k) dens) d) idx = s d + c d * at_ (centroids es dens d) idx.
Proof.
  intros Hk Hc Hs Hd Hi. unfold centroids. cbn [at_]. rewrite !corner_factor, nth_grid by exact Hd.
  assert (Hb : (nth d idx 0 < length (nth d es []) - 1)%nat).
  { apply (ProofNd.inb_nth _ _ d) in Hi; [|rewrite Hs, !map_length; exact Hd]. rewrite Hs, map_map in Hi.
    pose proof (map_nth (fun x : list R => (length x - 1)%nat) es [] d) as HN. cbn [length Nat.sub] in HN. rewrite HN in Hi. exact Hi. }
  rewrite !vget_unit by lia. apply centroid_unit; [apply Hc|exact Hk].
Qed.
Lemma same_map f a b : same_nd a b -> same_nd (map_nd f a) (map_nd f b).
Proof. intros [H1 H2]. split; [exact H1|]. intros idx Hi. cbn. f_equal. apply H2, Hi. Qed.
Lemma same_get a b idx : same_nd a b -> nd_get a idx = nd_get b idx.
Proof.
  intros [H1 H2]. unfold nd_get. rewrite <- H1. destruct (inbb (shp a) idx) eqn:E; [|reflexivity]. f_equal. apply H2, inbb_spec, E.
Qed.
Lemma sample_shape G x interp rs rand r : sg_sample G (Some x) interp rs rand = Ok r -> shp (fst r) = [length (g_edges G); Z.to_nat (trunc_int x)].
Proof.
  unfold sg_sample. destruct (Z.ltb _ 0); [discriminate|]. destruct (mapM (random_bin _ _) _) as [flats|e]; cbn [bind]; [|discriminate]. destruct (mapM (unravel_index _) _) as [bins|e]; cbn [bind]; [|discriminate].
  match goal with |- context [bind ?a _] => destruct a as [sv|e]; cbn [bind]; [|discriminate] end. match goal with |- context [bind ?a _] => destruct a as [g|e]; cbn [bind]; [|discriminate] end.
  match goal with |- context [bind ?a _] => destruct a as [sg|e]; cbn [bind]; [|discriminate] end. intros H. injection H as <-. reflexivity.
Qed.
Lemma trunc_whole z : (0 < z)%Z -> trunc_int (IZR z) = z.
Proof. intros H. rewrite <- (Z2Nat.id z) at 2 by lia. apply trunc_wants. rewrite INR_IZR_INZ, Z2Nat.id by lia. lra. Qed.
Lemma outliers_unit_run s c k G G' t pin pout interp rs rand : 0 < k -> (forall i, 0 < c i) -> g_edges G' = grid_unit s c (g_edges G) -> same_nd (g_mass G) (g_mass G') ->
  g_bins G' = g_bins G -> g_bins G = map (fun n => (n - 1)%nat) (shp (g_dens G)) -> shp (g_dens G) = map (@length R) (g_edges G) -> g_idx G' = g_idx G -> g_csum G' = g_csum G -> g_sdens G' = None -> g_sdens G = None ->
  g_dens G' = map_nd (fun v => v / k) (g_dens G) ->
  res_rel (outliers_unit s c) (so_sample G t pin pout interp rs rand) (so_sample G' t pin pout interp rs rand).
Proof.
  intros Hk Hc Ee Em Eb Ebs Esh Ei Ec Es' Es Ed.
  assert (HS : forall nsamp, res_rel (positions_unit s c) (sg_sample G nsamp interp (Some false) rand) (sg_sample G' nsamp interp (Some false) rand)).
  { intros nsamp. apply sample_unit; try assumption; [symmetry; apply same_total, Em|rewrite Ebs, Esh; reflexivity|]. intros d flats. rewrite Ed. apply norm_factor. lra. }
  unfold so_sample. destruct rs as [| |[|]]; try reflexivity.
  all: rewrite Ee, Eb, grid_len; pose proof (same_map (fun v => if Rltb t v then v else 0) _ _ Em) as Hin; pose proof (same_map (fun v => if Rltb t v then 0 else v) _ _ Em) as Hout;
    fold (ins_of t (g_mass G)) (ins_of t (g_mass G')) in Hin; fold (outs_of t (g_mass G)) (outs_of t (g_mass G')) in Hout;
    rewrite <- (same_flat _ _ Hin), <- (same_total _ _ Hout);
    set (inn := filter _ (seq 0 (length (flatten_nd (ins_of t (g_mass G)))))); set (nout := match pout with Some k0 => Z.of_nat k0 | None => _ end);
    destruct (mapM (unravel_index (g_bins G)) inn) as [bins|e] eqn:EB; cbn [bind]; [|reflexivity]; destruct (bins_inb G inn bins EB) as [Hbl Hbi];
    (rewrite (mapM_same (nd_get (ins_of t (g_mass G'))) (nd_get (ins_of t (g_mass G)))) by (intros idx; symmetry; apply same_get, Hin));
    destruct (mapM (nd_get (ins_of t (g_mass G))) bins) as [w0|e]; cbn [bind]; [|reflexivity];
    assert (HC : forall d j, (d < length (g_edges G))%nat -> (j < length inn)%nat -> at_ (centroids (grid_unit s c (g_edges G)) (g_dens G') d) (nth j bins []) = s d + c d * at_ (centroids (g_edges G) (g_dens G) d) (nth j bins []))
      by (intros d j Hd Hj; rewrite Ed; apply centroids_unit; [exact Hk|exact Hc|exact Esh|exact Hd|rewrite <- Ebs; apply Hbi, nth_In; lia]);
    (destruct (Z.ltb 0 nout) eqn:Hn;
     [specialize (HS (Some (IZR nout))); destruct (sg_sample G (Some (IZR nout)) interp (Some false) rand) as [r|e] eqn:ER, (sg_sample G' (Some (IZR nout)) interp (Some false) rand) as [r'|e']; cbn [res_rel] in HS; try contradiction; cbn [bind]; [|exact HS];
      destruct HS as (_ & _ & HS); assert (Hr : shp (fst r) = [length (g_edges G); Z.to_nat (trunc_int (IZR nout))]) by (exact (sample_shape G _ _ _ _ _ ER));
      apply Z.ltb_lt in Hn; rewrite trunc_whole in Hr by exact Hn; rewrite Hr in HS; cbn [nth] in HS|];
     cbn [res_rel]; (split; [reflexivity|]); (split; [reflexivity|]); (split; [reflexivity|]); cbn [fst snd shp at_ nth]; intros d j Hd Hj;
     [destruct (Nat.ltb_spec j (length inn)) as [Hjn|Hjn]; [apply HC; assumption|apply HS; [exact Hd|lia]]|apply HC; assumption]).
Qed.
Theorem outliers_units ord edges dens mass smass t s c pin pout interp rs rand : (forall i, 0 < c i) ->
  res_rel (outliers_unit s c)
    (do G <- Sample_Outliers ord (EList edges) dens t mass None smass ;; so_sample G t pin pout interp rs rand)
    (do G <- Sample_Outliers ord (EList (grid_unit s c edges)) (density_unit c dens) t mass None smass ;; so_sample G t pin pout interp rs rand).
Proof.
  intros Hc. unfold Sample_Outliers, make_grid. unfold density_unit at 1. rewrite check_unit. destruct (check_grid (EList edges) dens mass) as [es|e] eqn:EC; cbn [bind]; [|reflexivity].
  apply check_es in EC. destruct EC as [-> Esh]. assert (Hl : length edges = length (shp dens)) by (rewrite Esh, map_length; reflexivity).
  assert (HM : res_rel same_nd (match mass with Some m => Ok m | None => trapz_dens_to_mass dens edges None end) (match mass with Some m => Ok m | None => trapz_dens_to_mass (density_unit c dens) (grid_unit s c edges) None end)).
  { destruct mass as [m|]; [split; intros; reflexivity|]. apply mass_unit; assumption. }
  destruct (match mass with Some m => Ok m | None => trapz_dens_to_mass dens edges None end) as [m|e], (match mass with Some m => Ok m | None => trapz_dens_to_mass (density_unit c dens) (grid_unit s c edges) None end) as [m'|e']; cbn [res_rel] in HM; try contradiction; cbn [bind]; [|exact HM].
  pose proof (same_map (fun v => if Rltb t v then 0 else v) _ _ HM) as Hout. fold (outs_of t m) (outs_of t m') in Hout.
  destruct smass as [sm|]; cbn [bind]; (unfold data_to_cumulative; rewrite <- (same_flat _ _ Hout);
  destruct (flatten_nd (outs_of t m)) as [|v vs] eqn:EF; cbn [bind]; [reflexivity|]; cbn [fst snd];
  apply (outliers_unit_run s c (rprod (length (shp dens)) c)); cbn [g_edges g_mass g_bins g_idx g_csum g_sdens g_dens]; try reflexivity; try assumption; apply rprod_pos', Hc).
Qed.
Lemma ex_outliers_units : exists z v w v' , (do G <- Sample_Outliers some_argsort (EList [[0; 1; 3]]) (vec [1; 3; 1]) 3 None None None ;; so_sample G 3 None None true RsAbsent (fun _ _ => 1 / 3)) = Ok (z, v, w)
  /\ (do G <- Sample_Outliers some_argsort (EList [[7 + 2 * 0; 7 + 2 * 1; 7 + 2 * 3]]) (density_unit (fun _ => 2) (vec [1; 3; 1])) 3 None None None ;; so_sample G 3 None None true RsAbsent (fun _ _ => 1 / 3)) = Ok (z, v', w)
  /\ nth 0 w 0 = 4 /\ 1 < at_ v [0%nat; 0%nat] < 3 /\ at_ v' [0%nat; 0%nat] = 7 + 2 * at_ v [0%nat; 0%nat].
Proof.
  destruct three_case as (m & (_ & H2 & H3 & H4 & H5 & H6 & H7) & S & V0 & V1).
  assert (HC : grid_case (EList [[0; 1; 3]]) [[0; 1; 3]] (vec [1; 3; 1]) None None None m) by (split; [left; reflexivity|]; repeat (split; [assumption|]); exact H7).
  assert (HH : heavy_bins 3 m = [[1%nat]]).
  { unfold heavy_bins. rewrite S. cbn [all_idx seq flat_map map app filter]. rewrite V0, V1. destruct (Rlt_dec 3 2); [lra|]. destruct (Rlt_dec 3 4); [|lra]. reflexivity. }
  destruct (outliers_conserve some_argsort _ _ _ _ m 3 true (fun _ _ => 1 / 3) some_argsort_ok HC ltac:(lra) ltac:(intros n d j _ _; lra)) as (G & v & w & n & E1 & E2 & E3 & E4 & _ & _ & E5 & _).
  rewrite HH in *. cbn [length Nat.add map app] in *.
  pose proof (outliers_units some_argsort [[0; 1; 3]] (vec [1; 3; 1]) None None 3 (fun _ => 7) (fun _ => 2) None None true RsAbsent (fun _ _ => 1 / 3) ltac:(intros; lra)) as HR. rewrite E1 in HR. cbn [bind] in HR. rewrite E2 in HR.
  change (grid_unit (fun _ => 7) (fun _ => 2) [[0; 1; 3]]) with [[7 + 2 * 0; 7 + 2 * 1; 7 + 2 * 3]] in HR.
  destruct (do G <- Sample_Outliers some_argsort (EList [[7 + 2 * 0; 7 + 2 * 1; 7 + 2 * 3]]) (density_unit (fun _ => 2) (vec [1; 3; 1])) 3 None None None ;; so_sample G 3 None None true RsAbsent (fun _ _ => 1 / 3)) as [[[z' v'] w']|e] eqn:ER; [|contradiction].
  destruct HR as (Hz & _ & Hw & HR). cbn [fst snd] in Hz, Hw, HR. injection Hw as ->. subst z'. rewrite E3 in HR. cbn [nth] in HR. exists (Z.of_nat (Datatypes.S n)), v, w, v'. rewrite E1. split; [exact E2|]. split; [reflexivity|].
  split; [rewrite E4; cbn; exact V1|]. split; [|apply HR; cbn; lia]. destruct (E5 0%nat 0%nat ltac:(lia) ltac:(lia)) as [Hb _]. unfold column in Hb. cbn in Hb. exact Hb.
Qed.
