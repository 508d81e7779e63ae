(** Properties C01-C13, C22-C25, C27, C28, C48, C71, C72: values of the density, its integrals,
    reflection, construction of the KDE. *)
From Coquelicot Require Import Coquelicot.
From Coq Require Import Permutation String.
From Verif Require Import Base ModelLinAlg SpecLinAlg SpecIntegral ModelKernels SpecKernels ModelKDE
  SpecKDE ModelExtrema SpecNormal ProofNormal
  ProofLinAlg ProofKernels ProofDensity ProofAffine ProofReflect1 ProofMarginal ProofKDE ProofExtrema ProofTop
  ProofMarginal2 ProofExamples ProofTop2 ProofTop3.
Open Scope R_scope.
Notation length := List.length.

(** * C01 *)
(** density is the weighted sum of kernel profiles at the squared Mahalanobis distances, divided by
    the integral of the profile; pdf is density over the total weight. *)
Theorem C01_density_textbook : forall n data ws d M K N,
  (1 <= n)%nat -> built_kde n data ws d M None K -> is_inverse n M N ->
  exists Z f g, 0 < Z
    /\ (forall base, is_tintN n (fun y => spec_prof d (quad n N y)) base Z)
    /\ kde_density K false n None PNone = Ok f /\ kde_pdf K n None PNone = Ok g
    /\ forall x, f x = spec_sum d n N (combine data ws) x / Z /\ g x = f x / lsum ws.
Proof. exact top_textbook. Qed.
Print Assumptions C01_density_textbook.

Example C01_example : exists K M N,
  kde_init 2 data2 WNone BwNone false None Gaussian None None None = Ok K
  /\ built_kde 2 data2 [1; 1; 1] Gaussian M None K /\ is_inverse 2 M N.
Proof. destruct (data2_built Gaussian None) as [K [M [N [H1 [H2 [H3 _]]]]]]. exists K, M, N. repeat (split; [assumption|]). exact H3. Qed.

Theorem C01_not_posdef_raises : forall n data w ws b diag resc d cova neffa K M (prob : bool),
  weights_given w data ws ->
  kde_init n data w b diag resc d cova neffa None = Ok K ->
  kd_kernel K = Some (mkKernel d n M) -> symmetric n M -> ~ posdef n M ->
  kde_density K prob n None PNone = Err LinAlgError.
Proof. exact kde_not_posdef. Qed.
Print Assumptions C01_not_posdef_raises.

Example C01_not_posdef_example : exists K,
  kde_init 1 [p0] WNone (BwAtom (BNum 1)) false None Box (Some (fun _ _ => Ropp 1)) None None = Ok K
  /\ kd_kernel K = Some (mkKernel Box 1 (fun _ _ => Ropp 1)) /\ symmetric 1 (fun _ _ => Ropp 1) /\ ~ posdef 1 (fun _ _ => Ropp 1).
Proof.
  eexists. split; [reflexivity|]. cbn [kd_kernel]. unfold kernel_init. rewrite kernel_matrix_1. split; [reflexivity|].
  split; [intros i j _ _; reflexivity|]. intros H.
  assert (Hd := posdef_diag_pos 1 (fun _ _ => Ropp 1) O H ltac:(lia)). cbv beta in Hd. lra.
Qed.

(** * C02 *)
Theorem C02_density_nonneg : forall n data w b diag resc d cova neffa refl0 K (prob : bool) pdim refl p f x,
  kde_init n data w b diag resc d cova neffa refl0 = Ok K ->
  kde_density K prob pdim refl p = Ok f -> 0 <= f x.
Proof. exact kde_nonneg. Qed.
Print Assumptions C02_density_nonneg.

Theorem C02_density_bounded : forall n data ws d M K N Z base f x,
  (1 <= n)%nat -> built_kde n data ws d M None K -> is_inverse n M N ->
  is_tintN n (fun y => spec_prof d (quad n N y)) base Z -> kde_density K false n None PNone = Ok f ->
  f x <= lsum ws * (spec_prof d 0 / Z).
Proof. exact top_bounded. Qed.
Print Assumptions C02_density_bounded.

(** A reflected density exists for the example data, so both theorems apply to it. *)
Example C02_example : exists K f, kde_init 2 data2 WNone BwNone false None Triweight None None (Some [Some (Some 0, None); None]) = Ok K
  /\ kde_density K true 2 None PNone = Ok f.
Proof.
  destruct (data2_built Triweight (Some [Some (Some 0, None); None])) as [K [M [N [H1 [H2 _]]]]]. exists K.
  destruct (density_refl_exists_stored _ _ _ _ _ _ _ true H2 eq_refl) as [f Hf]. eauto.
Qed.

(** * C03 *)
Theorem C03_order_irrelevant : forall n data data' l l' b diag resc d cova neffa refl0 (prob : bool) pdim refl p,
  length l = length data -> length l' = length data' -> Permutation (combine data l) (combine data' l') ->
  res_rel (fun f g => forall x, f x = g x)
    (do K <- kde_init n data (WArr l) b diag resc d cova neffa refl0 ;; kde_density K prob pdim refl p)
    (do K <- kde_init n data' (WArr l') b diag resc d cova neffa refl0 ;; kde_density K prob pdim refl p).
Proof. exact kde_permutation. Qed.
Print Assumptions C03_order_irrelevant.

Theorem C03_order_irrelevant_unweighted : forall n data data' b diag resc d cova neffa refl0 (prob : bool) pdim refl p,
  Permutation data data' ->
  res_rel (fun f g => forall x, f x = g x)
    (do K <- kde_init n data WNone b diag resc d cova neffa refl0 ;; kde_density K prob pdim refl p)
    (do K <- kde_init n data' WNone b diag resc d cova neffa refl0 ;; kde_density K prob pdim refl p).
Proof. exact kde_permutation_none. Qed.
Print Assumptions C03_order_irrelevant_unweighted.

(** neff, kernel matrix (hence covariance and bandwidth) and extrema. *)
Theorem C03_order_irrelevant_summary : forall n data data' l l' b diag resc d cova neffa refl0,
  length l = length data -> length l' = length data' -> Permutation (combine data l) (combine data' l') ->
  res_rel (fun K K' => kd_neff K = kd_neff K' /\ kd_kernel K = kd_kernel K'
                       /\ forall ppf user, kde_extrema K ppf user = kde_extrema K' ppf user)
    (kde_init n data (WArr l) b diag resc d cova neffa refl0) (kde_init n data' (WArr l') b diag resc d cova neffa refl0).
Proof. exact init_perm_summary. Qed.
Print Assumptions C03_order_irrelevant_summary.

Example C03_example : Permutation (combine [q00; q10; q01] [Fin 1; Fin 2; Fin 3]) (combine [q01; q00; q10] [Fin 3; Fin 1; Fin 2])
  /\ exists K f, kde_init 2 data2 (WArr [Fin 1; Fin 2; Fin 3]) BwNone false None Gaussian None None None = Ok K
       /\ kde_density K true 2 None PNone = Ok f.
Proof.
  split. { cbn [combine]. apply Permutation_sym. apply (Permutation_cons_app [(q00, Fin 1); (q10, Fin 2)] []). apply Permutation_refl. }
  destruct (data2_ok (WArr [Fin 1; Fin 2; Fin 3]) [1; 2; 3] Gaussian None (or_intror eq_refl) eq_refl) as [K [M [N [HK [Hk [Hs [Hp _]]]]]]].
  { intros v [<-|[<-|[<-|[]]]]; lra. }
  assert (HB : built_kde 2 data2 [1; 2; 3] Gaussian M None K).
  { split; [|split; [exact Hk|split; assumption]]. do 6 eexists. split; [right; reflexivity|exact HK]. }
  destruct (density_plain_ex _ _ _ _ _ _ true HB) as [f [_ Hf]]. eauto.
Qed.

(** * C04 *)
Theorem C04_weight_scaling : forall c n data l b diag resc d cova neffa refl0 (prob : bool) pdim refl p, 0 < c ->
  res_rel (fun f g : pt -> R => forall x, g x = (if prob then 1 else c) * f x)
    (do K <- kde_init n data (WArr l) b diag resc d cova neffa refl0 ;; kde_density K prob pdim refl p)
    (do K <- kde_init n data (WArr (map (fscale c) l)) b diag resc d cova neffa refl0 ;; kde_density K prob pdim refl p).
Proof. exact kde_weight_scaling. Qed.
Print Assumptions C04_weight_scaling.

Theorem C04_neff_scaling : forall c m w, c <> 0 -> neff_of m (Some (map (Rmult c) w)) = neff_of m (Some w).
Proof. exact neff_scale. Qed.
Print Assumptions C04_neff_scaling.

Example C04_example : exists K f, kde_init 2 data2 (WArr (map (fscale 2) [Fin 1; Fin 2; Fin 3])) BwNone false None Gaussian None None None = Ok K
  /\ kde_density K false 2 None PNone = Ok f.
Proof.
  destruct (data2_ok (WArr (map (fscale 2) [Fin 1; Fin 2; Fin 3])) [2 * 1; 2 * 2; 2 * 3] Gaussian None (or_intror eq_refl) eq_refl)
    as [K [M [N [HK [Hk [Hs [Hp _]]]]]]].
  { intros v [<-|[<-|[<-|[]]]]; lra. }
  assert (HB : built_kde 2 data2 [2 * 1; 2 * 2; 2 * 3] Gaussian M None K).
  { split; [|split; [exact Hk|split; assumption]]. do 6 eexists. split; [right; reflexivity|exact HK]. }
  destruct (density_plain_ex _ _ _ _ _ _ false HB) as [f [_ Hf]]. eauto.
Qed.

(** * C05 *)
(** With the kernel matrix fixed by the user (covariance given, and bandwidth a number or neff
    given), natural-number weights are repeat counts. *)
Theorem C05_integer_weights_are_repeats : forall n data ks d C b diag resc neffa (prob : bool) pdim refl0 refl p,
  length ks = length data -> ((exists e, neffa = Some e) \/ (exists h, b = BwAtom (BNum h))) ->
  res_rel (fun f g => forall x, f x = g x)
    (do K <- kde_init n data (WArr (map (fun k => Fin (INR k)) ks)) b diag resc d (Some C) neffa refl0 ;;
     kde_density K prob pdim refl p)
    (do K <- kde_init n (flat_map (fun dk => repeat (fst dk) (snd dk)) (combine data ks)) WNone b diag resc d (Some C) neffa refl0 ;;
     kde_density K prob pdim refl p).
Proof. exact top_repeats. Qed.
Print Assumptions C05_integer_weights_are_repeats.

Example C05_example : flat_map (fun dk : pt * nat => repeat (fst dk) (snd dk)) (combine [p0; p1; p0] [2; 1; 0]%nat) = [p0; p0; p1]
  /\ exists K f, kde_init 1 [p0; p1] (WArr (map Fin [2; 1])) (BwAtom (BNum 1)) false None Box (Some ident) None None = Ok K
       /\ kde_density K true 1 None PNone = Ok f.
Proof.
  split; [reflexivity|].
  destruct (unit_kde 1 [p0; p1] [2; 1] Box None) as [K [HK [HB _]]]; [discriminate|reflexivity| | |].
  - intros v [<-|[<-|[]]]; lra.
  - exists 2. split; [left; reflexivity|lra].
  - destruct (density_plain_ex _ _ _ _ _ _ true HB) as [f [_ Hf]]. eauto.
Qed.

(** With the automatic covariance and bandwidth this fails. *)
Theorem C05_default_bandwidth_refuted :
  exists K K' f g,
    kde_init 1 [p0; p1] (WArr [Fin 2; Fin 1]) BwNone false None Box None None None = Ok K
    /\ kde_init 1 [p0; p0; p1] WNone BwNone false None Box None None None = Ok K'
    /\ kde_pdf K 1 None PNone = Ok f /\ kde_pdf K' 1 None PNone = Ok g
    /\ f (pt1 (1 / 2)) <> g (pt1 (1 / 2)).
Proof. exact repeats_default_witness. Qed.
Print Assumptions C05_default_bandwidth_refuted.

(** * C06 *)
Theorem C06_shift_and_units : forall n data w b diag resc d neffa refl0 (prob : bool) refl s c, (forall i, 0 < c i) ->
  res_rel (fun f g : pt -> R => forall x, g (aff s c x) * rprod n c = f x)
    (do K <- kde_init n data w b diag resc d None neffa refl0 ;; kde_density K prob n refl PNone)
    (do K <- kde_init n (map (aff s c) data) w b diag resc d None neffa (option_map (aff_refl s c 0) refl0) ;;
     kde_density K prob n (option_map (aff_refl s c 0) refl) PNone).
Proof. exact kde_units. Qed.
Print Assumptions C06_shift_and_units.

Theorem C06_shift_and_units_params : forall n data w b diag resc d neffa refl0 (prob : bool) refl ps s c,
  (forall i, 0 < c i) -> n <> 1%nat ->
  let s' := fun i => s (nth i ps O) in let c' := fun i => c (nth i ps O) in
  res_rel (fun f g : pt -> R => forall x, g (aff s' c' x) * rprod (length ps) c' = f x)
    (do K <- kde_init n data w b diag resc d None neffa refl0 ;; kde_density K prob (length ps) refl (PList ps))
    (do K <- kde_init n (map (aff s c) data) w b diag resc d None neffa (option_map (aff_refl s c 0) refl0) ;;
     kde_density K prob (length ps) (option_map (aff_refl s' c' 0) refl) (PList ps)).
Proof. exact kde_units_params. Qed.
Print Assumptions C06_shift_and_units_params.

Example C06_example : exists K f, kde_init 2 data2 WNone BwNone false None Parabola None None None = Ok K
  /\ kde_density K true 2 None PNone = Ok f /\ (forall i, 0 < (fun j : nat => INR j + 1) i).
Proof.
  destruct (data2_built Parabola None) as [K [M [N [HK [HB _]]]]].
  destruct (density_plain_ex _ _ _ _ _ _ true HB) as [f [_ Hf]]. exists K, (scaled true [1; 1; 1] f). split; [exact HK|]. split; [exact Hf|].
  intros i. pose proof (pos_INR i). lra.
Qed.

(** * C07 *)
Theorem C07_kernels_normalised : forall d n base, (1 <= n)%nat -> is_tintN n (dist_evaluate d n) base 1.
Proof. exact dist_evaluate_integral. Qed.
Print Assumptions C07_kernels_normalised.

(** The integral is not an artefact of a zero function. *)
Example C07_example : 0 < dist_evaluate Box 2 (fun _ => 0) /\ is_tintN 2 (dist_evaluate Box 2) (fun _ => 0) 1.
Proof.
  split; [|apply C07_kernels_normalised; lia].
  unfold dist_evaluate. apply Rdiv_lt_0_compat; [|apply dist_norm_pos; lia].
  assert (E : norm2 2 (fun _ => 0) = 0) by (unfold norm2, rsum; cbn; ring). rewrite E. unfold prof.
  destruct (Rleb_spec 0 1); lra.
Qed.

(** * C08 *)
Theorem C08_integral_is_mass : forall n data ws d M K (prob : bool) base,
  (1 <= n)%nat -> built_kde n data ws d M None K ->
  exists f, kde_density K prob n None PNone = Ok f /\ is_tintN n f base (mass prob ws).
Proof. exact top_integral. Qed.
Print Assumptions C08_integral_is_mass.

Example C08_example : exists K M, built_kde 2 data2 [1; 1; 1] Triweight M None K.
Proof. destruct (data2_built Triweight None) as [K [M [N [_ [H _]]]]]. eauto. Qed.

(** * C09 *)
Theorem C09_finite_support : forall n data ws d M K (prob : bool) f x i,
  built_kde n data ws d M None K -> finite d = true -> (i < n)%nat ->
  kde_density K prob n None PNone = Ok f ->
  (forall p, In p data -> sqrt (M i i) < Rabs (x i - p i)) -> f x = 0.
Proof. exact top_finite_support. Qed.
Print Assumptions C09_finite_support.

Theorem C09_zero_outside_extrema : forall n data ws d M K ppf ext (prob : bool) f x i,
  built_kde n data ws d M None K -> finite d = true ->
  kde_extrema K ppf None = Some (Ok ext) -> kde_density K prob n None PNone = Ok f -> (i < n)%nat ->
  (x i < fst (nth i ext (0, 0)) \/ snd (nth i ext (0, 0)) < x i) -> f x = 0.
Proof. exact top_extrema_support. Qed.
Print Assumptions C09_zero_outside_extrema.

Example C09_example : exists K ext, built_kde 1 [p0; p1] [2; 1] Box ident None K
  /\ kde_extrema K the_ppf None = Some (Ok ext) /\ snd (nth 0 ext (0, 0)) < 3
  /\ forall p, In p [p0; p1] -> sqrt (ident 0%nat 0%nat) < Rabs (pt1 3 O - p O).
Proof.
  destruct (unit_kde 1 [p0; p1] [2; 1] Box None) as [K [HK [HB _]]]; [discriminate|reflexivity| | |].
  - intros v [<-|[<-|[]]]; lra.
  - exists 2. split; [left; reflexivity|lra].
  - destruct (built_inv _ _ _ _ _ _ _ HB) as (En & Ed & Hne & Er & Ew & Hl & Hnn & Hp & Et & Ek & Hs & Hpd).
    assert (Ek' : kd_kernel K = Some (mkKernel Box (kd_ndim K) ident)) by (rewrite En; exact Ek).
    eexists K, _. split; [exact HB|]. split; [apply (kde_extrema_default K Box ident the_ppf _ Ek' Er eq_refl)|].
    unfold ident; cbn [Nat.eqb]; rewrite sqrt_1. split.
    + rewrite En, Ed. unfold eff_extrema, coords, p0, p1. cbn. rewrite sqrt_1. unfold num_pad.
      unfold Rmax, Rmin. repeat destruct (Rle_dec _ _); lra.
    + intros p [<-|[<-|[]]]; unfold pt1, p0, p1; rewrite Rabs_right; lra.
Qed.

(** * C10 *)
Theorem C10_extrema_contain_data : forall n data ws d M K ppf,
  built_kde n data ws d M None K -> is_ppf ppf -> (finite d = true \/ 2 <= kd_neff K) ->
  exists ext, kde_extrema K ppf None = Some (Ok ext) /\ length ext = n
    /\ forall i p, (i < n)%nat -> In p data -> fst (nth i ext (0, 0)) <= p i <= snd (nth i ext (0, 0)).
Proof. exact top_extrema_contain. Qed.
Print Assumptions C10_extrema_contain_data.

(** For 1 < neff < 2 the Gaussian extrema are pulled inwards; they contain the data only if the
    data range is small enough. *)
Theorem C10_gaussian_small_neff : forall n data ws M K ppf ext i,
  built_kde n data ws Gaussian M None K -> is_ppf ppf ->
  1 < kd_neff K < 2 -> kde_extrema K ppf None = Some (Ok ext) -> (i < n)%nat ->
  ((forall p, In p data -> fst (nth i ext (0, 0)) <= p i <= snd (nth i ext (0, 0)))
   <-> (forall p q, In p data -> In q data -> p i - q i <= 12 / 10 * sqrt (M i i) * - ppf (1 - 1 / kd_neff K))).
Proof. exact top_extrema_gaussian_iff. Qed.
Print Assumptions C10_gaussian_small_neff.

Theorem C10_default_excludes_data_refuted : forall ppf, is_ppf ppf ->
  exists K ext, kde_init 1 [p0; p1] (WArr [Fin 3; Fin 1]) BwNone false None Gaussian None None None = Ok K
    /\ kde_extrema K ppf None = Some (Ok ext)
    /\ 0 < fst (nth 0 ext (0, 0)) /\ snd (nth 0 ext (0, 0)) < 1.
Proof. exact extrema_exclude_witness. Qed.
Print Assumptions C10_default_excludes_data_refuted.

Example C10_example : exists ppf K M, is_ppf ppf /\ built_kde 2 data2 [1; 1; 1] Gaussian M None K /\ 2 <= kd_neff K.
Proof.
  destruct (data2_built Gaussian None) as [K [M [N [_ [H [_ E]]]]]]. exists the_ppf, K, M.
  split; [exact ppf_exists|]. split; [exact H|lra].
Qed.
Example C10_small_neff_example : exists K, built_kde 1 [p0; p1] [3; 1] Gaussian ident None K /\ 1 < kd_neff K < 2.
Proof.
  destruct (unit_kde 1 [p0; p1] [3; 1] Gaussian None) as [K [HK [HB E]]]; [discriminate|reflexivity| | |].
  - intros v [<-|[<-|[]]]; lra.
  - exists 3. split; [left; reflexivity|lra].
  - exists K. split; [exact HB|]. rewrite E. unfold sumsq. rewrite !sumf_cons, sumf_nil. cbn [lsum]. lra.
Qed.

(** * C11 *)
(** One boundary: total over the line (all of it on the allowed side) is the total weight. *)
Theorem C11_one_boundary_conserves : forall data ws d M refl K (prob : bool) b base,
  built_kde 1 data ws d M refl K -> (fst b = None \/ snd b = None) ->
  exists f, kde_density K prob 1 (Some [Some b]) PNone = Ok f /\ is_tintN 1 f base (mass prob ws)
    /\ forall x, outside b (x O) = true -> f x = 0.
Proof. exact top_reflect_one. Qed.
Print Assumptions C11_one_boundary_conserves.

Theorem C11_two_boundaries_finite_kernel : forall data ws d M refl K (prob : bool) lo hi base,
  built_kde 1 data ws d M refl K -> finite d = true ->
  lo < hi -> sqrt (M O O) <= hi - lo -> (forall p, In p data -> lo <= p O <= hi) ->
  exists f, kde_density K prob 1 (Some [Some (Some lo, Some hi)]) PNone = Ok f /\ is_tintN 1 f base (mass prob ws).
Proof. exact top_reflect_two. Qed.
Print Assumptions C11_two_boundaries_finite_kernel.

Theorem C11_two_boundaries_gaussian_loses : forall data ws M refl K (prob : bool) lo hi base,
  built_kde 1 data ws Gaussian M refl K -> lo < hi ->
  exists f y, kde_density K prob 1 (Some [Some (Some lo, Some hi)]) PNone = Ok f /\ is_tintN 1 f base y /\ y < mass prob ws.
Proof. exact top_reflect_two_gaussian. Qed.
Print Assumptions C11_two_boundaries_gaussian_loses.

Example C11_example : exists K, built_kde 1 [p0; p1] [2; 1] Parabola ident None K
  /\ 0 < 1 /\ sqrt (ident O O) <= 1 - 0 /\ forall p, In p [p0; p1] -> 0 <= p O <= 1.
Proof.
  destruct (unit_kde 1 [p0; p1] [2; 1] Parabola None) as [K [HK [HB _]]]; [discriminate|reflexivity| | |].
  - intros v [<-|[<-|[]]]; lra.
  - exists 2. split; [left; reflexivity|lra].
  - exists K. split; [exact HB|]. split; [lra|]. split.
    + unfold ident; cbn [Nat.eqb]; rewrite sqrt_1. lra.
    + intros p [<-|[<-|[]]]; unfold p0, p1; lra.
Qed.

(** * C12 *)
(** True of the last reflected dimension, in particular in one dimension. *)
Theorem C12_zero_outside_last_dimension : forall n data ws d M refl K (prob : bool) r b m f x,
  built_kde n data ws d M refl K -> (length r + 1 + m)%nat = n ->
  kde_density K prob n (Some (r ++ Some b :: repeat None m)) PNone = Ok f ->
  outside b (x (length r)) = true -> f x = 0.
Proof. exact top_reflect_outside. Qed.
Print Assumptions C12_zero_outside_last_dimension.

Theorem C12_zero_outside_any_dimension_refuted :
  exists n data ws d M refl K f x, built_kde n data ws d M (Some refl) K
    /\ kde_pdf K n None PNone = Ok f
    /\ (exists i b, nth i refl None = Some b /\ outside b (x i) = true) /\ 0 < f x.
Proof. exact top_reflect_refuted. Qed.
Print Assumptions C12_zero_outside_any_dimension_refuted.

Example C12_example : outside (Some 0, None) (- (1 / 2)) = true
  /\ exists K M f, built_kde 2 data2 [1; 1; 1] Box M None K
       /\ kde_density K true 2 (Some ([None] ++ Some (Some 0, None) :: repeat None 0)) PNone = Ok f.
Proof.
  split. { unfold outside. cbn [fst snd]. apply Bool.orb_true_iff. left. apply Rltb_true. lra. }
  destruct (data2_built Box None) as [K [M [N [_ [H2 _]]]]]. exists K, M.
  destruct (density_refl_exists _ _ _ _ _ _ _ true ([None] ++ Some (Some 0, None) :: repeat None 0) H2 eq_refl) as [f Hf]. eauto.
Qed.

(** * C13 *)
Theorem C13_far_from_boundary_unchanged : forall data ws d M K (prob : bool) b f g t,
  built_kde 1 data ws d M None K -> finite d = true ->
  kde_density K prob 1 (Some [Some b]) PNone = Ok f -> kde_density K prob 1 None PNone = Ok g ->
  (forall p, In p data -> outside b (p O) = false) ->
  (forall lo, fst b = Some lo -> lo + sqrt (M O O) < t) ->
  (forall hi, snd b = Some hi -> t < hi - sqrt (M O O)) -> f (pt1 t) = g (pt1 t).
Proof. exact top_reflect_far. Qed.
Print Assumptions C13_far_from_boundary_unchanged.

Theorem C13_boundary_point_doubled : forall data ws d M K (prob low : bool) f g t,
  built_kde 1 data ws d M None K ->
  kde_density K prob 1 (Some [Some (if low then (Some t, None) else (None, Some t))]) PNone = Ok f ->
  kde_density K prob 1 None PNone = Ok g -> f (pt1 t) = 2 * g (pt1 t).
Proof. exact top_reflect_boundary. Qed.
Print Assumptions C13_boundary_point_doubled.

Example C13_example : exists K f g, built_kde 1 [p0; p1] [2; 1] Box ident None K
  /\ kde_density K true 1 (Some [Some (Some 0, None)]) PNone = Ok f /\ kde_density K true 1 None PNone = Ok g
  /\ (forall p, In p [p0; p1] -> outside (Some 0, None) (p O) = false) /\ 0 + sqrt (ident O O) < 3 / 2.
Proof.
  destruct (unit_kde 1 [p0; p1] [2; 1] Box None) as [K [HK [HB _]]]; [discriminate|reflexivity| | |].
  - intros v [<-|[<-|[]]]; lra.
  - exists 2. split; [left; reflexivity|lra].
  - destruct (density_plain_ex _ _ _ _ _ _ true HB) as [g [_ Hg]].
    destruct (top_reflect_one _ _ _ _ _ _ true (Some 0, None) (fun _ => 0) HB (or_intror eq_refl)) as [f [Hf _]].
    exists K, f, (scaled true [2; 1] g). repeat (split; [assumption|]). split.
    + intros p [<-|[<-|[]]]; unfold outside, p0, p1; cbn [fst snd]; rewrite Bool.orb_false_r; apply Rltb_false; lra.
    + unfold ident; cbn [Nat.eqb]; rewrite sqrt_1. lra.
Qed.

(** * C22 *)
Theorem C22_weights_validated : forall n data l b diag resc d cova neffa refl, data <> [] -> bw_ok n b ->
  (valid_weights (length data) l -> exists K w, kde_init n data (WArr l) b diag resc d cova neffa refl = Ok K
     /\ kd_weights K = Some w /\ map Fin w = l)
  /\ (~ valid_weights (length data) l -> kde_init n data (WArr l) b diag resc d cova neffa refl = Err ValueError)
  /\ (valid_weights (length data) l -> kde_init n data (WList l) b diag resc d cova neffa refl = Err TypeError).
Proof. exact init_weights. Qed.
Print Assumptions C22_weights_validated.

Example C22_example : valid_weights 2 [Fin 0; Fin 3] /\ ~ valid_weights 2 [Fin 1; NaN] /\ ~ valid_weights 2 [Fin 1; Fin (Ropp 1)].
Proof.
  split; [|split].
  - split; [reflexivity|]. split.
    + intros x [<-|[<-|[]]]; eexists; (split; [reflexivity|lra]).
    + exists (Fin 3). split; [right; left; reflexivity|]. intros E. injection E as E. lra.
  - intros [_ [H _]]. destruct (H NaN (or_intror (or_introl eq_refl))) as [r [E _]]. discriminate E.
  - intros [_ [H _]]. destruct (H _ (or_intror (or_introl eq_refl))) as [r [E Hr]]. injection E as E. subst r. lra.
Qed.

(** * C23 *)
Theorem C23_neff_bounds : forall n data w ws b diag resc d cova refl K, weights_given w data ws ->
  kde_init n data w b diag resc d cova None refl = Ok K ->
  1 <= kd_neff K <= INR (length data)
  /\ (kd_neff K = INR (length data) <-> forall x y, In x ws -> In y ws -> x = y)
  /\ (kd_neff K = 1 <-> nnz ws = 1%nat).
Proof. exact init_neff. Qed.
Print Assumptions C23_neff_bounds.

Example C23_example : exists K, kde_init 1 [p0; p1] (WArr (map Fin [3; 1])) (BwAtom (BNum 1)) false None Box (Some ident) None None = Ok K
  /\ kd_neff K = 16 / 10.
Proof.
  destruct (unit_kde 1 [p0; p1] [3; 1] Box None) as [K [HK [HB E]]]; [discriminate|reflexivity| | |].
  - intros v [<-|[<-|[]]]; lra.
  - exists 3. split; [left; reflexivity|lra].
  - exists K. split; [exact HK|]. rewrite E. unfold sumsq. rewrite !sumf_cons, sumf_nil. cbn [lsum]. lra.
Qed.

(** * C24 *)
Theorem C24_scott_factor : forall ndim,
  (forall x, 0 < scott x ndim)
  /\ (forall x y, 0 < x < y -> scott y ndim < scott x ndim)
  /\ (forall eps, 0 < eps -> exists N0, 0 < N0 /\ forall x, N0 <= x -> scott x ndim < eps)
  /\ (forall x, 1 <= x -> scott x ndim <= 1).
Proof. exact scott_facts. Qed.
Print Assumptions C24_scott_factor.

Theorem C24_silverman_factor : forall ndim,
  (forall x, 0 < silverman x ndim)
  /\ (forall x y, 0 < x < y -> silverman y ndim < silverman x ndim)
  /\ (forall eps, 0 < eps -> exists N0, 0 < N0 /\ forall x, N0 <= x -> silverman x ndim < eps).
Proof. exact silverman_facts. Qed.
Print Assumptions C24_silverman_factor.

Example C24_example : scott 3 1 < scott 2 1 < 1.
Proof.
  split; [apply C24_scott_factor; lra|]. apply Rlt_le_trans with (scott (3 / 2) 1); apply C24_scott_factor; lra.
Qed.

(** * C25 *)
Theorem C25_kernel_matrix : forall n data w b (diag : bool) d C neffa refl K,
  kde_init n data w b diag None d (Some C) neffa refl = Ok K ->
  exists kern, kd_kernel K = Some kern /\ k_dist kern = d /\ k_ndim kern = n
  /\ (forall h, b = BwAtom (BNum h) -> forall i j, k_matrix kern i j = if diag then (if Nat.eqb i j then h * h * C i j else 0) else h * h * C i j)
  /\ (forall hs, b = BwSeq (map BNum hs) -> length hs = n /\ n <> 1%nat
        /\ forall i j, k_matrix kern i j = if Nat.eqb i j then nth i hs 0 * nth i hs 0 * C i i else 0)
  /\ (forall isarr rows, b = BwMat isarr rows -> isarr = true /\ length rows = n /\ (forall r, In r rows -> length r = n) /\ n <> 1%nat
        /\ forall i j, k_matrix kern i j = nth j (nth i rows []) 0 * nth j (nth i rows []) 0 * C i j).
Proof. exact kde_matrix_cases. Qed.
Print Assumptions C25_kernel_matrix.

Theorem C25_accepted_bandwidths : forall neff n diag b resc,
  bw_ok n b <-> exists bw, set_bandwidth neff n diag b resc = Ok bw.
Proof. exact set_bandwidth_ok. Qed.
Print Assumptions C25_accepted_bandwidths.

Theorem C25_rejected_bandwidths : forall neff n diag b resc e, set_bandwidth neff n diag b resc = Err e ->
  e = ValueError \/ (e = TypeError /\ exists rows, b = BwMat false rows /\ length rows = n).
Proof. exact set_bandwidth_err. Qed.
Print Assumptions C25_rejected_bandwidths.

Example C25_example : bw_ok 2 (BwSeq [BNum 1; BStr "scott"]) /\ ~ bw_ok 1 (BwSeq [BNum 1]) /\ ~ bw_ok 2 (BwAtom (BStr "foo"))
  /\ exists K, kde_init 2 data2 WNone (BwSeq (map BNum [1; 2])) false None Box (Some ident) None None = Ok K.
Proof.
  split; [|split; [|split]].
  - cbn. repeat split; try lia. intros a [<-|[<-|[]]]; cbn; auto.
  - cbn. intros [_ [H _]]. apply H. reflexivity.
  - cbn. intros [H|H]; discriminate H.
  - unfold kde_init. cbn. eexists. reflexivity.
Qed.

(** * C27 *)
(** Gaussian kernel: density(params=ps) is the full density integrated over the other dimensions
    [rest], at every value [base] of the selected ones. *)
Theorem C27_params_is_marginal : forall n data ws M K (prob : bool) rest ps f g base,
  built_kde n data ws Gaussian M None K ->
  Permutation (rest ++ ps) (seq 0 n) -> ps <> [] -> n <> 1%nat ->
  kde_density K prob n None PNone = Ok f -> kde_density K prob (length ps) None (PList ps) = Ok g ->
  is_tintL rest f base (g (select ps base)).
Proof. exact top_marginal. Qed.
Print Assumptions C27_params_is_marginal.

Theorem C27_finite_kernel_refuted :
  exists n data ws d M K f g rest ps base l, built_kde n data ws d M None K
    /\ Permutation (rest ++ ps) (seq 0 n)
    /\ kde_pdf K n None PNone = Ok f /\ kde_pdf K (length ps) None (PList ps) = Ok g
    /\ is_tintL rest f base l /\ l <> g (select ps base).
Proof. exact top_marginal_refuted. Qed.
Print Assumptions C27_finite_kernel_refuted.

Example C27_example : exists K M f g, built_kde 2 data2 [1; 1; 1] Gaussian M None K
  /\ Permutation ([1%nat] ++ [0%nat]) (seq 0 2)
  /\ kde_density K true 2 None PNone = Ok f /\ kde_density K true 1 None (PList [0%nat]) = Ok g.
Proof.
  destruct (data2_built Gaussian None) as [K [M [N [_ [HB _]]]]].
  destruct (density_plain_ex _ _ _ _ _ _ true HB) as [f [_ Hf]].
  destruct (top_params_ok _ _ _ _ _ _ true [0%nat] HB) as [g Hg]; [lia|repeat constructor; auto|intros q [<-|[]]; lia|].
  exists K, M, (scaled true [1; 1; 1] f), g. split; [exact HB|]. split; [apply perm_swap|]. split; assumption.
Qed.

(** * C28 *)
Theorem C28_params_permutation : forall n data ws d M K (prob : bool) ps f g x,
  built_kde n data ws d M None K -> (1 < n)%nat ->
  Permutation ps (seq 0 n) -> kde_density K prob n None PNone = Ok f -> kde_density K prob n None (PList ps) = Ok g ->
  g (select ps x) = f x.
Proof. exact top_params_perm. Qed.
Print Assumptions C28_params_permutation.

Theorem C28_params_one_dimension : forall K (prob : bool) pdim refl q, kd_ndim K = 1%nat ->
  kde_density K prob pdim refl (PInt q) = if Nat.eqb q 0 then kde_density K prob pdim refl PNone else Err ValueError.
Proof. exact params_1d. Qed.
Print Assumptions C28_params_one_dimension.

Theorem C28_params_int_is_list : forall K (prob : bool) pdim refl q, kd_ndim K <> 1%nat ->
  kde_density K prob pdim refl (PInt q) = kde_density K prob pdim refl (PList [q]).
Proof. exact params_int_list. Qed.
Print Assumptions C28_params_int_is_list.

Theorem C28_params_accepted : forall n data ws d M K (prob : bool) ps,
  built_kde n data ws d M None K -> n <> 1%nat -> NoDup ps ->
  (forall q, In q ps -> (q < n)%nat) -> exists g, kde_density K prob (length ps) None (PList ps) = Ok g.
Proof. exact top_params_ok. Qed.
Print Assumptions C28_params_accepted.

Example C28_example : exists K M f g, built_kde 2 data2 [1; 1; 1] Triweight M None K
  /\ Permutation [1%nat; 0%nat] (seq 0 2)
  /\ kde_density K true 2 None PNone = Ok f /\ kde_density K true 2 None (PList [1%nat; 0%nat]) = Ok g.
Proof.
  destruct (data2_built Triweight None) as [K [M [N [_ [HB _]]]]].
  destruct (density_plain_ex _ _ _ _ _ _ true HB) as [f [_ Hf]].
  destruct (top_params_ok _ _ _ _ _ _ true [1%nat; 0%nat] HB) as [g Hg]; [lia| |intros q [<-|[<-|[]]]; lia|].
  { constructor; [intros [H|[]]; discriminate H|repeat constructor; auto]. }
  exists K, M, (scaled true [1; 1; 1] f), g. split; [exact HB|]. split; [apply perm_swap|]. split; assumption.
Qed.

(** * C48 *)
Theorem C48_extrema_filled_per_dimension : forall dext l, length l = length dext ->
  (forall e, In e l -> e = XNone \/ exists lo hi, e = XPair lo hi) -> (exists lo hi, In (XPair lo hi) l) ->
  exists r, parse_extrema dext (Some l) = Ok r /\ length r = length dext
    /\ forall i, (i < length dext)%nat -> nth i r (0, 0) =
       match nth i l XNone with
       | XPair lo hi => (match lo with Some v => v | None => fst (nth i dext (0, 0)) end,
                         match hi with Some v => v | None => snd (nth i dext (0, 0)) end)
       | _ => nth i dext (0, 0)
       end.
Proof. exact parse_per_dim. Qed.
Print Assumptions C48_extrema_filled_per_dimension.

(** A single pair: None is filled from the first dimension for all dimensions. *)
Theorem C48_single_pair_shared : forall d0 dext a b, x_scalar a = true -> x_scalar b = true ->
  parse_extrema (d0 :: dext) (Some [a; b]) =
  Ok (repeat (match a with XNum v => v | _ => fst d0 end, match b with XNum v => v | _ => snd d0 end) (S (length dext))).
Proof. exact parse_flat_shared. Qed.
Print Assumptions C48_single_pair_shared.

Theorem C48_single_pair_refuted : exists dext l r, parse_extrema dext (Some l) = Ok r
  /\ l = [XNone; XNum 9] /\ nth 1 dext (0, 0) = (5, 6) /\ nth 1 r (0, 0) = (0, 9).
Proof. exists [(0, 1); (5, 6)], [XNone; XNum 9]. eexists. repeat split. Qed.
Print Assumptions C48_single_pair_refuted.

Example C48_example : exists lo hi, In (XPair lo hi) [XNone; XPair (Some 2) None].
Proof. exists (Some 2), None. right. left. reflexivity. Qed.

(** * C71 *)
(** The default construction: whether density raises depends on the data alone. *)
Theorem C71_default_density_outcome : forall n data w ws d K (prob : bool),
  weights_given w data ws ->
  kde_init n data w BwNone false None d None None None = Ok K ->
  ((nnz ws <= 1)%nat -> kde_density K prob n None PNone = Err ValueError)
  /\ ((2 <= nnz ws)%nat -> degenerate n data ws -> kde_density K prob n None PNone = Err LinAlgError)
  /\ ((2 <= nnz ws)%nat -> ~ degenerate n data ws -> exists f, kde_density K prob n None PNone = Ok f).
Proof. exact kde_default_density. Qed.
Print Assumptions C71_default_density_outcome.

Example C71_example : ~ degenerate 2 data2 [1; 1; 1] /\ degenerate 2 [q00; q10] [1; 1].
Proof.
  split; [apply data2_nondeg; [reflexivity|intros v [<-|[<-|[<-|[]]]]; lra]|].
  exists (fun i => match i with 1%nat => 1 | _ => 0 end), 0. split; [exists 1%nat; split; [lia|lra]|].
  intros p w [E|[E|[]]] _; injection E as <- <-; unfold rsum, q00, q10; cbn; ring.
Qed.

(** * C72 *)
Theorem C72_no_weights_is_unit_weights : forall n data b diag resc d cova neffa refl0 (prob : bool) pdim refl p,
  res_rel (fun f g => forall x, f x = g x)
    (do K <- kde_init n data WNone b diag resc d cova neffa refl0 ;; kde_density K prob pdim refl p)
    (do K <- kde_init n data (WArr (repeat (Fin 1) (length data))) b diag resc d cova neffa refl0 ;; kde_density K prob pdim refl p).
Proof. exact kde_unit_weights. Qed.
Print Assumptions C72_no_weights_is_unit_weights.

Example C72_example : exists K f, kde_init 2 data2 WNone BwNone false None Gaussian None None None = Ok K
  /\ kde_density K true 2 None PNone = Ok f.
Proof.
  destruct (data2_built Gaussian None) as [K [M [N [HK [HB _]]]]].
  destruct (density_plain_ex _ _ _ _ _ _ true HB) as [f [_ Hf]]. eauto.
Qed.
