(** Kernel samplers, support of samples, mismatch of reflected resampling and density. *)
From Coquelicot Require Import Coquelicot.
From Coq Require Import FunctionalExtensionality.
From Verif Require Import Base ModelLinAlg SpecLinAlg ProofLinAlg ModelKernels ProofKernels ModelKDE SpecKDE ModelExtrema ProofExtrema
  ModelReflect SpecReflect ProofReflectArg ModelInterp ProofInterp ModelResample SpecResample ProofReflect1 ProofTop2 ProofTop3 ProofResample ProofResample2.
Open Scope R_scope.
Notation length := List.length.

(* ------------------------------------------------------------ triweight table *)
Lemma triweight_cdf_0 : triweight_cdf 0 = 0.
Proof. unfold triweight_cdf. field. Qed.
Lemma triweight_cdf_1 : triweight_cdf 1 = 1.
Proof. unfold triweight_cdf. field. Qed.
Lemma triweight_cdf_deriv x : derivable_pt_lim triweight_cdf x (70 / 32 * (1 - x * x) ^ 3).
Proof.
  apply is_derive_Reals. unfold triweight_cdf. auto_derive; [exact I|]. cbn [pow INR Init.Nat.pred]. field.
Qed.
Lemma triweight_cdf_incr x y : 0 <= x -> x < y -> y <= 1 -> triweight_cdf x < triweight_cdf y.
Proof.
  intros Hx Hxy Hy.
  destruct (MVT_cor2 triweight_cdf (fun x => 70 / 32 * (1 - x * x) ^ 3) x y Hxy) as [c [Hc1 Hc2]].
  { intros c _. apply triweight_cdf_deriv. }
  assert (0 < (1 - c * c) ^ 3) by (apply pow_lt; nra). nra.
Qed.
(** The derivative is the density of the absolute value of a 1-D triweight deviate. *)
Lemma triweight_cdf_density x : 0 <= x <= 1 ->
  derivable_pt_lim triweight_cdf x (2 * dist_evaluate Triweight 1 (fun _ => x)).
Proof.
  intros Hx. replace (2 * dist_evaluate Triweight 1 (fun _ => x)) with (70 / 32 * (1 - x * x) ^ 3); [apply triweight_cdf_deriv|].
  unfold dist_evaluate, norm2, prof. cbn [rsum].
  assert (E : Rmax ((1 - (0 + x * x)) ^ 3) 0 = (1 - x * x) ^ 3).
  { rewrite Rmax_left; [f_equal; ring|]. apply pow_le. nra. }
  rewrite E. assert (EN : dist_norm Triweight 1 = 32 / 35).
  { rewrite dist_norm_finite by (try reflexivity; lia). cbn [rprod]. rewrite betaq_gamma. cbn [dq Nat.add].
    assert (G8 : gammah 8 = 6) by (cbn; field). assert (G9 : gammah 9 = 105 / 16 * sqrt PI) by (cbn; field).
    rewrite G8, G9. field. pose proof sqrtPI_sq. pose proof PI_RGT_0. intros E0. rewrite E0 in H. lra. }
  rewrite EN. field.
Qed.

Lemma tab_y_cdf m i : (1 <= m)%nat -> tab_y m i = triweight_cdf (tab_x m i).
Proof.
  intros Hm. unfold tab_y. destruct (Nat.eqb_spec i m) as [->|]; [|reflexivity].
  unfold tab_x, Rdiv. rewrite Rinv_r by (apply not_0_INR; lia). symmetry. apply triweight_cdf_1.
Qed.
Lemma tab_x_incr m : (1 <= m)%nat -> increasing (tab_x m) m.
Proof.
  intros Hm i j Hij Hj. unfold tab_x. apply Rmult_lt_compat_r; [apply Rinv_0_lt_compat, lt_0_INR; lia|apply lt_INR, Hij].
Qed.
Lemma tab_x_range m i : (1 <= m)%nat -> (i <= m)%nat -> 0 <= tab_x m i <= 1.
Proof.
  intros Hm Hi. unfold tab_x. assert (0 < INR m) by (apply lt_0_INR; lia). pose proof (pos_INR i). apply le_INR in Hi. split.
  - apply Rmult_le_pos; [assumption|left; apply Rinv_0_lt_compat; assumption].
  - apply Rmult_le_reg_r with (INR m); [assumption|]. unfold Rdiv. rewrite Rmult_assoc, Rinv_l by lra. lra.
Qed.
Lemma tab_y_incr m : (1 <= m)%nat -> increasing (tab_y m) m.
Proof.
  intros Hm i j Hij Hj. rewrite !tab_y_cdf by assumption. apply triweight_cdf_incr.
  - apply tab_x_range; lia.
  - apply tab_x_incr; assumption.
  - apply tab_x_range; lia.
Qed.
Lemma tab_0 m : (1 <= m)%nat -> tab_x m 0 = 0 /\ tab_y m 0 = 0.
Proof.
  intros Hm. assert (E : tab_x m 0 = 0) by (unfold tab_x, Rdiv; cbn [INR]; ring). split; [exact E|].
  rewrite tab_y_cdf, E by assumption. apply triweight_cdf_0.
Qed.
Lemma tab_1 m : (1 <= m)%nat -> tab_x m m = 1 /\ tab_y m m = 1.
Proof.
  intros Hm. assert (E : tab_x m m = 1) by (unfold tab_x, Rdiv; rewrite Rinv_r by (apply not_0_INR; lia); ring). split; [exact E|].
  rewrite tab_y_cdf, E by assumption. apply triweight_cdf_1.
Qed.

Lemma inverse_total m u : (1 <= m)%nat -> 0 <= u <= 1 ->
  triweight_inverse_m m u = Ok (interp (tab_y m) (tab_x m) m u).
Proof.
  intros Hm Hu. unfold triweight_inverse_m, interp1d. destruct (tab_0 m Hm) as [_ ->]. destruct (tab_1 m Hm) as [_ ->].
  destruct (Rltb_spec u 0); [lra|]. destruct (Rltb_spec 1 u); [lra|]. reflexivity.
Qed.
Lemma inverse_range m u : (1 <= m)%nat -> 0 <= u <= 1 ->
  exists r, triweight_inverse_m m u = Ok r /\ 0 <= r <= 1.
Proof.
  intros Hm Hu. rewrite inverse_total by assumption. eexists. split; [reflexivity|].
  destruct (tab_0 m Hm) as [Ex0 Ey0]. destruct (tab_1 m Hm) as [Ex1 Ey1].
  pose proof (interp_range (tab_y m) (tab_x m) m u Hm (tab_y_incr m Hm) (incr_nondecr _ _ (tab_x_incr m Hm))) as H.
  rewrite Ex0, Ey0, Ex1, Ey1 in H. apply H. lra.
Qed.
Lemma inverse_mono m u v : (1 <= m)%nat -> 0 <= u -> u < v -> v <= 1 ->
  exists r s, triweight_inverse_m m u = Ok r /\ triweight_inverse_m m v = Ok s /\ r < s.
Proof.
  intros Hm Hu Huv Hv. rewrite !inverse_total by (lra || assumption). do 2 eexists. split; [reflexivity|]. split; [reflexivity|].
  destruct (tab_0 m Hm) as [Ex0 Ey0]. destruct (tab_1 m Hm) as [Ex1 Ey1].
  apply interp_strict; auto using tab_y_incr, tab_x_incr; rewrite ?Ey0, ?Ey1; lra.
Qed.
Lemma inverse_knots m i : (1 <= m)%nat -> (i <= m)%nat -> triweight_inverse_m m (triweight_cdf (INR i / INR m)) = Ok (INR i / INR m).
Proof.
  intros Hm Hi. change (INR i / INR m) with (tab_x m i). rewrite <- tab_y_cdf by assumption.
  rewrite inverse_total; [f_equal; apply interp_knot; auto using tab_y_incr|assumption|].
  - destruct (tab_0 m Hm) as [_ Ey0]. destruct (tab_1 m Hm) as [_ Ey1]. pose proof (incr_nondecr _ _ (tab_y_incr m Hm)) as Hn.
    pose proof (Hn O i ltac:(lia) Hi). pose proof (Hn i m Hi ltac:(lia)). lra.
Qed.
(** Accuracy: the exact radius differs by at most one table step. *)
Lemma inverse_accuracy m u x : (1 <= m)%nat -> 0 <= x <= 1 -> triweight_cdf x = u ->
  exists r, triweight_inverse_m m u = Ok r /\ Rabs (r - x) <= / INR m.
Proof.
  intros Hm Hx <-. destruct (tab_0 m Hm) as [Ex0 Ey0]. destruct (tab_1 m Hm) as [Ex1 Ey1].
  assert (Hmono : forall a b, 0 <= a -> b <= 1 -> a <= b -> triweight_cdf a <= triweight_cdf b).
  { intros a b Ha Hb [Hab| ->]; [left; apply triweight_cdf_incr; assumption|lra]. }
  assert (Hu : 0 <= triweight_cdf x <= 1).
  { pose proof (Hmono 0 x ltac:(lra) ltac:(lra) ltac:(lra)). pose proof (Hmono x 1 ltac:(lra) ltac:(lra) ltac:(lra)).
    rewrite triweight_cdf_0, triweight_cdf_1 in *. lra. }
  rewrite inverse_total by assumption. eexists. split; [reflexivity|].
  set (u := triweight_cdf x) in *.
  assert (Hb : tab_y m 0 <= u <= tab_y m m) by (rewrite Ey0, Ey1; exact Hu).
  destruct (interp_bin_spec (tab_y m) m u Hm (incr_nondecr _ _ (tab_y_incr m Hm)) Hb) as [Hlo Hin].
  pose proof (interp_between (tab_y m) (tab_x m) m u Hm (tab_y_incr m Hm) (incr_nondecr _ _ (tab_x_incr m Hm)) Hb) as B. cbv zeta in B.
  set (lo := interp_bin (tab_y m) m u) in *. rewrite !tab_y_cdf in Hin by assumption.
  assert (H1 : tab_x m lo <= x).
  { destruct (Rle_lt_dec (tab_x m lo) x) as [|Hlt]; [assumption|]. exfalso.
    pose proof (triweight_cdf_incr x (tab_x m lo) (proj1 Hx) Hlt (proj2 (tab_x_range m lo Hm ltac:(lia)))). unfold u in *. lra. }
  assert (H2 : x <= tab_x m (S lo)).
  { destruct (Rle_lt_dec x (tab_x m (S lo))) as [|Hlt]; [assumption|]. exfalso.
    pose proof (triweight_cdf_incr (tab_x m (S lo)) x (proj1 (tab_x_range m (S lo) Hm ltac:(lia))) Hlt (proj2 Hx)). unfold u in *. lra. }
  assert (H3 : tab_x m (S lo) = tab_x m lo + / INR m).
  { unfold tab_x. rewrite S_INR. field. apply not_0_INR. lia. }
  apply Rabs_le. lra.
Qed.

(* ------------------------------------------------------------ samples of finite kernels *)
Lemma scaled_direction_norm n (c g : nat -> R) : (exists k, (k < n)%nat /\ g k <> 0) -> (forall k, 0 <= c k <= 1) ->
  norm2 n (fun k => c k * g k / sqrt (norm2 n g)) <= 1.
Proof.
  intros [k0 [Hk0 Hg]] Hc.
  assert (Hpos : 0 < norm2 n g).
  { unfold norm2. apply Rlt_le_trans with (g k0 * g k0); [apply Rlt_0_sqr in Hg; exact Hg|].
    apply (rsum_ge_term n (fun k => g k * g k)); [intros; apply Rle_0_sqr|exact Hk0]. }
  pose proof (sqrt_lt_R0 _ Hpos) as Hs.
  assert (Hss : sqrt (norm2 n g) * sqrt (norm2 n g) = norm2 n g) by (apply sqrt_sqrt; lra).
  apply Rle_trans with (norm2 n g / norm2 n g); [|right; field; lra].
  set (N := norm2 n g) in *. replace (N / N) with (rsum n (fun k => g k * g k * / N)) by (rewrite rsum_scal_r; reflexivity).
  unfold norm2. apply rsum_le. intros k Hk.
  replace (c k * g k / sqrt N * (c k * g k / sqrt N)) with (c k * c k * (g k * g k * / N)).
  - assert (0 <= g k * g k * / N).
    { apply Rmult_le_pos; [apply Rle_0_sqr|left; apply Rinv_0_lt_compat; exact Hpos]. }
    specialize (Hc k). assert (c k * c k <= 1) by nra. nra.
  - assert (E : / N = / sqrt N * / sqrt N) by (rewrite <- Rinv_mult, Hss; reflexivity). rewrite E. unfold Rdiv. ring.
Qed.

Lemma nth_root_range u n : 0 <= u < 1 -> (1 <= n)%nat -> 0 <= nth_root u n <= 1.
Proof.
  intros Hu Hn. unfold nth_root. destruct (Req_EM_T u 0); [lra|]. unfold Rpower. split; [left; apply exp_pos|].
  apply Rle_trans with (exp 0); [|rewrite exp_0; lra]. left. apply exp_increasing.
  assert (Hln : ln u < 0). { rewrite <- ln_1. apply ln_increasing; lra. }
  assert (0 < 1 / INR n) by (apply Rdiv_lt_0_compat; [lra|apply lt_0_INR; lia]). nra.
Qed.

Lemma median3_range a b c lo hi : lo <= a <= hi -> lo <= b <= hi -> lo <= c <= hi -> lo <= median3 a b c <= hi.
Proof.
  intros. unfold median3, Rmax, Rmin. repeat destruct (Rle_dec _ _); lra.
Qed.

Lemma tab_m_pos : (1 <= tab_m)%nat.
Proof. unfold tab_m. change (10 ^ 3)%nat with (10 * (10 * (10 * 1)))%nat. lia. Qed.

Theorem sample_in_ball d n r : (1 <= n)%nat -> valid_rnd n r -> d = Box \/ d = Triweight \/ (d = Parabola /\ n = 1%nat) ->
  norm2 n (dist_sample d n r) <= 1.
Proof.
  intros Hn [Hu [Hs Hg]] [->|[->|[-> ->]]].
  - unfold dist_sample. destruct (Nat.eqb_spec n 1) as [->|].
    + unfold norm2. cbn [rsum]. specialize (Hs O O). nra.
    + apply scaled_direction_norm; [exact Hg|]. intros k. apply nth_root_range; auto.
  - unfold dist_sample. apply scaled_direction_norm; [exact Hg|]. intros k.
    destruct (inverse_range tab_m (r_unif r k) tab_m_pos) as [s [E Hr]]; [specialize (Hu k); lra|].
    unfold triweight_inverse. rewrite E. exact Hr.
  - unfold dist_sample, norm2. cbn [rsum].
    pose proof (median3_range (r_sym r 0 0) (r_sym r 1 0) (r_sym r 2 0) (-1) 1) as H.
    pose proof (Hs 0%nat 0%nat). pose proof (Hs 1%nat 0%nat). pose proof (Hs 2%nat 0%nat).
    specialize (H ltac:(lra) ltac:(lra) ltac:(lra)). nra.
Qed.

Theorem parabola_outside n : (2 <= n)%nat -> exists r, valid_rnd n r /\ 1 < norm2 n (dist_sample Parabola n r).
Proof.
  intros Hn. exists (mkRnd (fun _ => 1) (fun _ => 0) (fun _ _ => 9 / 10)). split.
  - split; [intros; cbn; lra|]. split; [intros; cbn; lra|]. exists O. split; [lia|cbn; lra].
  - unfold dist_sample, norm2. cbn [r_sym].
    assert (E : median3 (9/10) (9/10) (9/10) = 9 / 10) by (unfold median3, Rmax, Rmin; repeat destruct (Rle_dec _ _); lra).
    rewrite E. rewrite rsum_const. apply le_INR in Hn. change (INR 2) with (1 + 1) in Hn. nra.
Qed.

(** In terms of the kernel: non-negative, and zero outside the ball. *)
Lemma factor_1 M U : is_factor 1 M U -> U O O = sqrt (M O O) /\ 0 < M O O.
Proof.
  intros [_ [H2 H3]]. specialize (H2 O ltac:(lia)). specialize (H3 O O ltac:(lia) ltac:(lia)). cbn [rsum] in H3.
  rewrite Rplus_0_l in H3. split; [|nra]. rewrite <- H3. symmetry. apply sqrt_square. lra.
Qed.

(** C38 *)
Theorem sample_near_data data ws d M refl K size chunk arg rn ix :
  built_kde 1 data ws d M refl K -> finite d = true -> clear_arg K arg ->
  (forall j, valid_rnd 1 (rn O j)) -> valid_choice data ws (size_of data size) (ix O) ->
  exists ss, snd (kde_resample K size KeepNone chunk arg rn ix) = Ok ss /\ length ss = size_of data size
    /\ forall s, In s ss -> exists p w, In (p, w) (combine data ws) /\ 0 < w /\ Rabs (s O - p O) <= sqrt (M O O).
Proof.
  intros HB Hf Ha Hr Hc.
  destruct (kept_verbatim 1 data ws d M refl K size KeepNone chunk arg rn ix HB Ha) as [ss [U (E1 & E2 & E3 & E4)]]; [intros i []|exact Hc|].
  exists ss. split; [exact E1|]. split; [exact E2|]. intros s Hs. destruct (In_nth ss s pt0 Hs) as [j [Hj <-]]. rewrite E2 in Hj.
  destruct (E4 j Hj) as [p [w (A & B & C)]]. exists p, w. split; [exact A|]. split; [exact B|].
  destruct (C O ltac:(lia)) as [_ C1]. rewrite C1 by (intros []). cbn [rsum]. destruct (factor_1 M U E3) as [-> HM].
  assert (Hz : Rabs (dist_sample d 1 (rn O j) O) <= 1).
  { assert (HN : norm2 1 (dist_sample d 1 (rn O j)) <= 1).
    { apply sample_in_ball; [lia|apply Hr|]. destruct d; try discriminate Hf; auto. }
    unfold norm2 in HN. cbn [rsum] in HN. apply Rabs_le. nra. }
  replace (p O + (0 + sqrt (M O O) * dist_sample d 1 (rn O j) O) - p O) with (sqrt (M O O) * dist_sample d 1 (rn O j) O) by ring.
  rewrite Rabs_mult. pose proof (sqrt_pos (M O O)). rewrite (Rabs_pos_eq (sqrt (M O O))) by assumption. nra.
Qed.

Theorem sample_in_extrema data ws d M K size chunk arg rn ix ppf ext :
  built_kde 1 data ws d M None K -> finite d = true -> (arg = RFalse \/ arg = RNone) ->
  (forall j, valid_rnd 1 (rn O j)) -> valid_choice data ws (size_of data size) (ix O) ->
  kde_extrema K ppf None = Some (Ok ext) ->
  exists ss, snd (kde_resample K size KeepNone chunk arg rn ix) = Ok ss
    /\ forall s, In s ss -> fst (nth 0 ext (0, 0)) < s O < snd (nth 0 ext (0, 0)).
Proof.
  intros HB Hf Ha Hr Hc He.
  destruct (built_inv _ _ _ _ _ _ _ HB) as (En & Ed & Hne & Er & Ew & Hl & Hnn & Hp & Et & Ek & Hs & Hpd).
  assert (Ha' : clear_arg K arg) by (destruct Ha as [-> | ->]; [left; reflexivity|right; auto]).
  destruct (sample_near_data _ _ _ _ _ _ size chunk arg rn ix HB Hf Ha' Hr Hc) as [ss (E1 & E2 & E3)].
  exists ss. split; [exact E1|]. intros s Hs'. destruct (E3 s Hs') as [p [w (A & B & C)]].
  assert (HM : 0 < M O O) by (apply (posdef_diag_pos 1 M O Hpd); lia). pose proof (sqrt_lt_R0 _ HM) as Hsq.
  assert (Ek' : kd_kernel K = Some (mkKernel d (kd_ndim K) M)) by (rewrite En; exact Ek).
  assert (Eo : ext_out d (kd_neff K) ppf = Some (1 + num_pad)) by (unfold ext_out; rewrite Hf; reflexivity).
  assert (Hnp := num_pad_pos).
  rewrite (kde_extrema_default K d M ppf _ Ek' Er Eo) in He.
  injection He as <-. rewrite En, Ed. unfold eff_extrema, sort_pair. cbn [seq map nth fst snd].
  apply in_combine_l in A.
  assert (Hlo : lmin (coords 0 data) <= p O) by (apply lmin_le; unfold coords; apply (in_map (fun q : pt => q O)), A).
  assert (Hhi : p O <= lmax (coords 0 data)) by (apply lmax_ge; unfold coords; apply (in_map (fun q : pt => q O)), A).
  apply Rabs_le_between in C.
  assert (sqrt (M O O) < sqrt (M O O) * (1 + num_pad)) by nra.
  set (a := lmin _ - _). set (b := lmax _ + _). assert (a < s O) by (unfold a; lra). assert (s O < b) by (unfold b; lra).
  pose proof (Rmin_l a b). pose proof (Rmax_r a b). lra.
Qed.
