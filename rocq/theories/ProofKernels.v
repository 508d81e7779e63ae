From Coquelicot Require Import Coquelicot.
From Verif Require Import Base ModelLinAlg SpecLinAlg ProofLinAlg SpecIntegral ProofIntegral
  ProofWallis ProofGauss ModelKernels SpecKernels.

(* ---------------------------------------------------------------- profiles *)
Lemma prof_spec d r : prof d r = spec_prof d r.
Proof.
  destruct d; simpl.
  - f_equal. field.
  - unfold Rleb. destruct (Rle_dec r 1); reflexivity.
  - destruct (Rle_dec r 1); [apply Rmax_left; lra|apply Rmax_right; lra].
  - destruct (Rle_dec r 1) as [H|H].
    + replace ((1 - r) * ((1 - r) * ((1 - r) * 1))) with ((1 - r) * (1 - r) * (1 - r)) by ring.
      apply Rmax_left. assert (0 <= 1 - r) by lra.
      apply Rmult_le_pos; [apply Rmult_le_pos|]; assumption.
    + apply Rmax_right.
      replace ((1 - r) * ((1 - r) * ((1 - r) * 1))) with (- ((r - 1) * (r - 1) * (r - 1))) by ring.
      assert (0 <= (r - 1) * (r - 1) * (r - 1)).
      { apply Rmult_le_pos; [apply Rmult_le_pos|]; lra. }
      lra.
Qed.

Lemma prof_nonneg d r : 0 <= prof d r.
Proof.
  destruct d; simpl.
  - left; apply exp_pos.
  - destruct (Rleb r 1); lra.
  - apply Rmax_r.
  - apply Rmax_r.
Qed.

Lemma prof_le_1 d r : 0 <= r -> prof d r <= 1.
Proof.
  intros Hr. rewrite prof_spec. destruct d; simpl.
  - rewrite <- exp_0. destruct (Req_EM_T r 0) as [->|]; [right; f_equal; field|].
    left. apply exp_increasing. lra.
  - destruct (Rle_dec r 1); lra.
  - destruct (Rle_dec r 1); lra.
  - destruct (Rle_dec r 1); [|lra].
    assert (0 <= 1 - r <= 1) by lra. assert (0 <= (1 - r) * (1 - r) <= 1) by nra. nra.
Qed.

Lemma prof_0 d : prof d 0 = 1.
Proof.
  rewrite prof_spec. destruct d; simpl; try (destruct (Rle_dec 0 1); lra).
  replace (- (0 / 2)) with 0 by field. apply exp_0.
Qed.

(** Power of the finite profiles: (1-r)^(q/2). *)
Definition dq (d : dist) : nat := match d with Gaussian => 0 | Box => 0 | Parabola => 2 | Triweight => 6 end.

Lemma prof_kq d r : finite d = true -> prof d r = kq (dq d) r.
Proof.
  intros H. rewrite prof_spec. unfold kq. destruct d; try discriminate; simpl;
  destruct (Rle_dec r 1) as [Hr|Hr]; try reflexivity.
  - rewrite Rmult_1_r. rewrite sqrt_sqrt; lra.
  - assert (E : sqrt (1 - r) * sqrt (1 - r) = 1 - r) by (apply sqrt_sqrt; lra).
    transitivity ((sqrt (1 - r) * sqrt (1 - r)) * (sqrt (1 - r) * sqrt (1 - r)) * (sqrt (1 - r) * sqrt (1 - r))).
    + rewrite E; reflexivity.
    + ring.
Qed.

(** Finite kernels vanish beyond distance one. *)
Lemma prof_finite_zero d r : finite d = true -> 1 < r -> prof d r = 0.
Proof.
  intros H Hr. rewrite prof_kq by exact H. unfold kq. destruct (Rle_dec r 1); [lra|reflexivity].
Qed.

(* ---------------------------------------------------------------- gamma / norms *)
Lemma gammah_SS m : (1 <= m)%nat -> gammah (S (S m)) = INR m / 2 * gammah m.
Proof. destruct m as [|m]; [lia|]. intros _. reflexivity. Qed.
Lemma gammah_1 : gammah 1 = sqrt PI. Proof. reflexivity. Qed.
Lemma gammah_2 : gammah 2 = 1. Proof. reflexivity. Qed.
Lemma gammah_pos m : (1 <= m)%nat -> 0 < gammah m.
Proof.
  assert (H : forall m, 0 < gammah (S m) /\ 0 < gammah (S (S m))).
  { induction m0 as [|m0 [IH1 IH2]].
    - rewrite gammah_1, gammah_2. split; [apply sqrt_lt_R0, PI_RGT_0|lra].
    - split; [exact IH2|]. rewrite gammah_SS by lia.
      apply Rmult_lt_0_compat; [|exact IH1]. apply Rdiv_lt_0_compat; [apply lt_0_INR; lia|lra]. }
  destruct m as [|m]; [lia|]. intros _. apply H.
Qed.

Lemma sqrtPI_sq : sqrt PI * sqrt PI = PI.
Proof. apply sqrt_sqrt. left; apply PI_RGT_0. Qed.

Lemma betaq_gamma q : betaq q = sqrt PI * gammah (q + 2) / gammah (q + 3).
Proof.
  assert (H : betaq q = sqrt PI * gammah (q + 2) / gammah (q + 3)
           /\ betaq (S q) = sqrt PI * gammah (S q + 2) / gammah (S q + 3)).
  { assert (Hs : 0 < sqrt PI) by (apply sqrt_lt_R0, PI_RGT_0).
    induction q as [|q [IH1 IH2]].
    - split.
      + rewrite betaq_0. cbn [Nat.add]. rewrite (gammah_SS 1), gammah_1, gammah_2 by lia.
        simpl INR. field. lra.
      + rewrite betaq_1. cbn [Nat.add]. rewrite (gammah_SS 1), (gammah_SS 2), gammah_1, gammah_2 by lia.
        simpl INR. rewrite <- sqrtPI_sq at 1. field.
    - split; [exact IH2|]. rewrite betaq_SS, IH1.
      replace (S (S q) + 2)%nat with (S (S (q + 2))) by lia.
      replace (S (S q) + 3)%nat with (S (S (q + 3))) by lia.
      rewrite (gammah_SS (q + 2)), (gammah_SS (q + 3)) by lia.
      rewrite !plus_INR. simpl (INR 2). simpl (INR 3).
      pose proof (gammah_pos (q + 3) ltac:(lia)). pose proof (pos_INR q).
      field. repeat split; lra. }
  apply H.
Qed.

Lemma Rpower_half_S a n : 0 < a -> Rpower a (INR (S n) / 2) = Rpower a (INR n / 2) * sqrt a.
Proof.
  intros Ha. rewrite S_INR. replace ((INR n + 1) / 2) with (INR n / 2 + / 2) by field.
  rewrite Rpower_plus, Rpower_sqrt by exact Ha. reflexivity.
Qed.
Lemma Rpower_half_pos a x : 0 < Rpower a x. Proof. unfold Rpower; apply exp_pos. Qed.
Lemma Rpower_0 a : Rpower a (INR 0 / 2) = 1.
Proof. simpl. unfold Rpower. replace (0 / 2 * ln a) with 0 by field. apply exp_0. Qed.

(** Product of the one-dimensional integrals. *)
Lemma prod_betaq q n :
  rprod n (fun i => betaq (q + i)) = Rpower PI (INR n / 2) * gammah (q + 2) / gammah (q + n + 2).
Proof.
  induction n as [|n IH].
  - cbn [rprod]. rewrite Rpower_0, Nat.add_0_r. pose proof (gammah_pos (q + 2) ltac:(lia)). field. lra.
  - cbn [rprod]. rewrite IH, betaq_gamma, Rpower_half_S by apply PI_RGT_0.
    replace (q + S n + 2)%nat with (q + n + 3)%nat by lia.
    pose proof (gammah_pos (q + n + 2) ltac:(lia)). pose proof (gammah_pos (q + n + 3) ltac:(lia)).
    field. split; lra.
Qed.

Lemma dist_norm_finite d n : (1 <= n)%nat -> finite d = true ->
  dist_norm d n = rprod n (fun i => betaq (dq d + i)).
Proof.
  intros Hn H. rewrite prod_betaq.
  pose proof (gammah_pos n Hn) as Hgn. pose proof (pos_INR n) as HIn.
  assert (HI1 : 0 < INR n) by (apply lt_0_INR; lia).
  assert (G2 : gammah (n + 2) = INR n / 2 * gammah n).
  { replace (n + 2)%nat with (S (S n)) by lia. apply gammah_SS; lia. }
  assert (G4 : gammah (n + 4) = (INR n + 2) / 2 * gammah (n + 2)).
  { replace (n + 4)%nat with (S (S (n + 2))) by lia. rewrite gammah_SS by lia.
    rewrite plus_INR. reflexivity. }
  assert (Hg2 : 0 < gammah (n + 2)) by (apply gammah_pos; lia).
  destruct d; try discriminate; unfold dist_norm, dq.
  - unfold nball_vol. cbn [Nat.add]. rewrite gammah_2. field. lra.
  - unfold nball_vol. replace (2 + n + 2)%nat with (n + 4)%nat by lia. rewrite G4.
    change (2 + 2)%nat with (S (S 2)). rewrite (gammah_SS 2), gammah_2 by lia. simpl INR.
    field. split; lra.
  - unfold beta_kernel_norm, nball_vol, betah.
    replace (6 + n + 2)%nat with (8 + n)%nat by lia. change (6 + 2)%nat with 8%nat.
    rewrite G2. pose proof (gammah_pos (8 + n) ltac:(lia)).
    field. repeat split; lra.
Qed.

Lemma dist_norm_gauss n : dist_norm Gaussian n = rprod n (fun _ => sqrt (2 * PI)).
Proof.
  unfold dist_norm. pose proof PI_RGT_0. induction n as [|n IH]; [apply Rpower_0|].
  cbn [rprod]. rewrite <- IH. apply Rpower_half_S. lra.
Qed.

Lemma dist_norm_pos d n : (1 <= n)%nat -> 0 < dist_norm d n.
Proof.
  intros Hn. destruct (finite d) eqn:E.
  - rewrite dist_norm_finite by assumption. apply rprod_pos. intros; apply betaq_pos.
  - destruct d; try discriminate. unfold dist_norm. apply Rpower_half_pos.
Qed.

(* ---------------------------------------------------------------- n-dimensional integrals *)
Lemma tintN_ext_base n f g base l :
  (forall x, (forall k, (n <= k)%nat -> x k = base k) -> f x = g x) ->
  is_tintN n f base l -> is_tintN n g base l.
Proof.
  revert base l. induction n as [|n IH]; intros base l H H1; simpl in *.
  - rewrite <- (H base) by reflexivity. exact H1.
  - destruct H1 as [h [Hh Hl]]. exists h. split; [|exact Hl]. intros t.
    apply IH; [|apply Hh]. intros x Hx. apply H. intros k Hk.
    rewrite Hx by lia. apply upd_other. lia.
Qed.

Section Triangular.
  Variable K : nat -> R -> R.
  Variable B : nat -> R.
  Hypothesis Hstep : forall q r u v, 0 < u ->
    is_tint (fun t => K q (r + (u * t + v) * (u * t + v))) (B q / u * K (S q) r).

  Lemma tintN_triangular n U q r v base :
    (forall i j, (j < i)%nat -> U i j = 0) -> (forall i, (i < n)%nat -> 0 < U i i) ->
    is_tintN n (fun x => K q (r + rsum n (fun k => (mvec n U x k + v k) * (mvec n U x k + v k))))
      base (rprod n (fun i => B (q + i) / U i i) * K (q + n) r).
  Proof.
    intros Hz. revert q r v base. induction n as [|n IH]; intros q r v base Hp.
    - simpl. rewrite Rplus_0_r, Nat.add_0_r. ring.
    - cbn [is_tintN].
      exists (fun t => rprod n (fun i => B (q + i) / U i i)
                       * K (q + n)%nat (r + (U n n * t + v n) * (U n n * t + v n))).
      split.
      + intros t.
        assert (Hp' : forall i, (i < n)%nat -> 0 < U i i) by (intros; apply Hp; lia).
        specialize (IH q (r + (U n n * t + v n) * (U n n * t + v n)) (fun k => U k n * t + v k) (upd base n t) Hp').
        apply tintN_ext_base with (2 := IH).
        intros x Hx. assert (Hxn : x n = t) by (rewrite Hx by lia; apply upd_same).
        f_equal. cbn [rsum].
        assert (E1 : mvec (S n) U x n = U n n * t).
        { unfold mvec. cbn [rsum]. rewrite rsum_zero_ext.
          - rewrite Hxn. ring.
          - intros k Hk. rewrite Hz by lia. ring. }
        rewrite E1.
        rewrite (rsum_ext n (fun k => (mvec (S n) U x k + v k) * (mvec (S n) U x k + v k))
           (fun k => (mvec n U x k + (U k n * t + v k)) * (mvec n U x k + (U k n * t + v k)))).
        * ring.
        * intros k Hk. unfold mvec. cbn [rsum]. rewrite Hxn. ring.
      + replace (rprod (S n) (fun i => B (q + i) / U i i) * K (q + S n)%nat r)
          with (rprod n (fun i => B (q + i) / U i i) * (B (q + n) / U n n * K (S (q + n)) r)).
        * apply tint_scal. apply Hstep. apply Hp; lia.
        * cbn [rprod]. replace (q + S n)%nat with (S (q + n)) by lia. ring.
  Qed.
End Triangular.

Lemma white_dist2_alt n W x d :
  white_dist2 n W x d
  = rsum n (fun k => (mvec n W x k + - mvec n W d k) * (mvec n W x k + - mvec n W d k)).
Proof. unfold white_dist2, mvec. apply rsum_ext; intros; ring. Qed.

Lemma kq_0 q : kq q 0 = 1.
Proof. unfold kq. destruct (Rle_dec 0 1); [|lra]. rewrite Rminus_0_r, sqrt_1, pow1. reflexivity. Qed.

Lemma rprod_div n f g : (forall i, (i < n)%nat -> g i <> 0) ->
  rprod n (fun i => f i / g i) = rprod n f / rprod n g.
Proof.
  induction n as [|n IH]; intros H; simpl; [field|].
  rewrite IH by (intros; apply H; lia).
  assert (Hg : rprod n g <> 0).
  { clear IH. assert (Hn : forall i, (i < n)%nat -> g i <> 0) by (intros; apply H; lia). clear H.
    induction n as [|n IH]; simpl; [lra|]. apply Rmult_integral_contrapositive_currified.
    - apply IH. intros; apply Hn; lia.
    - apply Hn; lia. }
  pose proof (H n ltac:(lia)). field. split; assumption.
Qed.

(** Integral of one whitened, shifted kernel over all of space. *)
Lemma kernel_integral d n U a base : (1 <= n)%nat ->
  (forall i j, (j < i)%nat -> U i j = 0) -> (forall i, (i < n)%nat -> 0 < U i i) ->
  is_tintN n (fun x => prof d (white_dist2 n U x a)) base (dist_norm d n / rprod n (fun i => U i i)).
Proof.
  intros Hn Hz Hp.
  assert (Hne : forall i, (i < n)%nat -> U i i <> 0) by (intros i Hi; specialize (Hp i Hi); lra).
  destruct (finite d) eqn:E.
  - pose proof (tintN_triangular kq betaq kq_step n U (dq d) 0 (fun k => - mvec n U a k) base Hz Hp) as H.
    rewrite kq_0, Rmult_1_r, rprod_div in H by exact Hne.
    rewrite <- dist_norm_finite in H by assumption.
    apply tintN_ext with (2 := H). intros x. rewrite prof_kq by exact E.
    rewrite white_dist2_alt, Rplus_0_l. reflexivity.
  - destruct d; try discriminate.
    pose proof (tintN_triangular (fun _ r => exp (- r / 2)) (fun _ => sqrt (2 * PI))
      (fun _ r u v => gauss_step r u v) n U 0 0 (fun k => - mvec n U a k) base Hz Hp) as H.
    cbv beta in H.
    replace (- 0 / 2) with 0 in H by field.
    rewrite exp_0, Rmult_1_r, (rprod_div n (fun _ => sqrt (2 * PI))) in H by exact Hne.
    rewrite <- dist_norm_gauss in H.
    apply tintN_ext with (2 := H). intros x. unfold prof.
    rewrite white_dist2_alt, Rplus_0_l. reflexivity.
Qed.

(** The kernels themselves are normalised. *)
Lemma dist_evaluate_integral d n base : (1 <= n)%nat ->
  is_tintN n (dist_evaluate d n) base 1.
Proof.
  intros Hn.
  pose proof (kernel_integral d n ident (fun _ => 0) base Hn) as H.
  assert (Hz : forall i j, (j < i)%nat -> ident i j = 0) by (intros; apply ident_neq; lia).
  assert (Hp : forall i, (i < n)%nat -> 0 < ident i i) by (intros; rewrite ident_refl; lra).
  specialize (H Hz Hp).
  assert (E : rprod n (fun i => ident i i) = 1).
  { clear. induction n as [|n IH]; simpl; [reflexivity|]. rewrite IH, ident_refl. ring. }
  rewrite E in H. pose proof (dist_norm_pos d n Hn) as HN.
  apply (tintN_scal n (/ dist_norm d n)) in H.
  replace (/ dist_norm d n * (dist_norm d n / 1)) with 1 in H by (field; lra).
  apply tintN_ext with (2 := H). intros x. unfold dist_evaluate, Rdiv.
  rewrite Rmult_comm. f_equal. f_equal. unfold white_dist2, norm2.
  apply rsum_ext; intros k Hk.
  rewrite (rsum_ident_l n x k Hk), (rsum_ident_l n (fun _ => 0) k Hk). ring.
Qed.

(* ---------------------------------------------------------------- density = textbook sum *)
Lemma white_dist2_mvec n W x d :
  white_dist2 n W x d = rsum n (fun k => mvec n W (psub x d) k * mvec n W (psub x d) k).
Proof.
  unfold white_dist2. apply rsum_ext; intros k Hk. unfold mvec, psub.
  rewrite (rsum_ext n (fun j => W k j * (x j - d j)) (fun j => W k j * x j - W k j * d j)) by (intros; ring).
  rewrite rsum_minus. ring.
Qed.

Lemma white_dist2_quad n N W x d : chol n N = Some W -> symmetric n N ->
  white_dist2 n W x d = quad n N (psub x d).
Proof. intros H Hs. rewrite white_dist2_mvec. apply chol_quad; assumption. Qed.

Lemma quad_nonneg_of_chol n N W x : chol n N = Some W -> symmetric n N -> 0 <= quad n N x.
Proof.
  intros H Hs. rewrite <- (chol_quad n N W x H Hs). apply rsum_nonneg; intros; apply Rle_0_sqr.
Qed.

Lemma eval_numba_spec d n N W wd x : chol n N = Some W -> symmetric n N ->
  eval_numba n W (prof d) wd x = spec_sum d n N wd x.
Proof.
  intros H Hs. unfold eval_numba, spec_sum. apply sumf_ext. intros dw _.
  rewrite (white_dist2_quad n N W) by assumption. rewrite prof_spec. ring.
Qed.

Definition ones {A} (l : list A) : list R := map (fun _ => 1) l.

(** The plain (no params, no reflection) density, with everything that is needed about it. *)
Lemma kernel_density_plain d n M data ow :
  symmetric n M -> posdef n M ->
  (forall w, ow = Some w -> length w = length data) ->
  exists N W, minv n M = Some N /\ chol n N = Some W /\ symmetric n N /\ is_inverse n M N
    /\ rprod n (fun i => W i i) * sqrt (Rabs (mdet n M)) = 1
    /\ kernel_density (mkKernel d n M) n n data ow None None
       = Ok (fun x => eval_numba n W (prof d) (combine data (match ow with Some w => w | None => ones data end)) x
                      / (sqrt (Rabs (mdet n M)) * dist_norm d n)).
Proof.
  intros Hs Hp Hw. destruct (whiten_posdef n M Hs Hp) as [N [W [HN [HW Hdet]]]].
  exists N, W. repeat split; auto.
  - apply (minv_sym n M N HN Hs).
  - apply (minv_sound n M N HN); assumption.
  - apply (minv_sound n M N HN); assumption.
  - pose proof (mdet_posdef n M Hs Hp) as Hd. rewrite Rabs_pos_eq by lra.
    destruct (chol_sound n N W HW) as [_ Hpos _].
    assert (HP : 0 < rprod n (fun i => W i i)) by (apply rprod_pos; exact Hpos).
    rewrite rprod_mult in Hdet.
    assert (Hsq : 0 < sqrt (mdet n M)) by (apply sqrt_lt_R0; exact Hd).
    assert (Hss : sqrt (mdet n M) * sqrt (mdet n M) = mdet n M) by (apply sqrt_sqrt; lra).
    set (p := rprod n (fun i => W i i)) in *. set (s := sqrt (mdet n M)) in *.
    assert (Hps : (p * s) * (p * s) = 1) by (rewrite <- Hdet, <- Hss; ring).
    assert (0 < p * s) by nra. nra.
  - unfold kernel_density. cbn [k_ndim k_matrix k_dist bind fst snd].
    rewrite Nat.eqb_refl. cbn [negb].
    destruct ow as [w|].
    + rewrite (Hw w eq_refl), Nat.eqb_refl. cbn [bind]. rewrite HN, HW. reflexivity.
    + cbn [bind]. rewrite HN, HW. reflexivity.
Qed.

Lemma spec_sum_ext d n N P wd x : agree n N P -> spec_sum d n N wd x = spec_sum d n P wd x.
Proof.
  intros H. unfold spec_sum. apply sumf_ext; intros. f_equal. f_equal.
  apply quad_ext; [exact H|reflexivity].
Qed.

Lemma sym_of_agree n N P : agree n N P -> symmetric n N -> symmetric n P.
Proof. intros H Hs i j Hi Hj. rewrite <- !H by assumption. apply Hs; assumption. Qed.

Lemma prof_quad_integral d n M N W a base : (1 <= n)%nat ->
  symmetric n N -> chol n N = Some W -> 0 < sqrt (Rabs (mdet n M)) ->
  rprod n (fun i => W i i) * sqrt (Rabs (mdet n M)) = 1 ->
  is_tintN n (fun x => prof d (white_dist2 n W x a)) base (sqrt (Rabs (mdet n M)) * dist_norm d n).
Proof.
  intros Hn Hs HW Hpos Hd. destruct (chol_sound n N W HW) as [Hz Hp _].
  assert (HP : 0 < rprod n (fun i => W i i)) by (apply rprod_pos; exact Hp).
  replace (sqrt (Rabs (mdet n M)) * dist_norm d n) with (dist_norm d n / rprod n (fun i => W i i)).
  - apply kernel_integral; auto.
  - replace (sqrt (Rabs (mdet n M))) with (/ rprod n (fun i => W i i)).
    + unfold Rdiv; ring.
    + apply Rmult_eq_reg_l with (rprod n (fun i => W i i)); [|lra].
      rewrite Hd. apply Rinv_r. lra.
Qed.

Lemma sqrt_mdet_pos n M : symmetric n M -> posdef n M -> 0 < sqrt (Rabs (mdet n M)).
Proof.
  intros Hs Hp. pose proof (mdet_posdef n M Hs Hp). apply sqrt_lt_R0. rewrite Rabs_pos_eq; lra.
Qed.

(** C01: textbook form, with the normalisation characterised as the integral of one kernel. *)
Lemma density_textbook d n M N data w :
  (1 <= n)%nat -> symmetric n M -> posdef n M -> is_inverse n M N ->
  length w = length data ->
  exists Z f, 0 < Z
    /\ (forall base, is_tintN n (fun y => spec_prof d (quad n N y)) base Z)
    /\ kernel_density (mkKernel d n M) n n data (Some w) None None = Ok f
    /\ forall x, f x = spec_sum d n N (combine data w) x / Z.
Proof.
  intros Hn Hs Hp Hinv Hw.
  destruct (kernel_density_plain d n M data (Some w) Hs Hp) as [N' [W [HN [HW [HsN [Hinv' [Hd Hk]]]]]]].
  { intros w' E; injection E as <-; exact Hw. }
  pose proof (inverse_unique n M N' N Hinv' Hinv) as Hag.
  pose proof (sqrt_mdet_pos n M Hs Hp) as Hsq.
  exists (sqrt (Rabs (mdet n M)) * dist_norm d n).
  eexists. split; [|split; [|split; [exact Hk|]]].
  - apply Rmult_lt_0_compat; [exact Hsq|apply dist_norm_pos, Hn].
  - intros base. pose proof (prof_quad_integral d n M N' W (fun _ => 0) base Hn HsN HW Hsq Hd) as H.
    apply tintN_ext with (2 := H). intros x.
    rewrite (white_dist2_quad n N' W) by assumption. rewrite prof_spec. f_equal.
    apply quad_ext; [exact Hag|]. intros i _. unfold psub. ring.
  - intros x. cbv beta. rewrite (eval_numba_spec d n N') by assumption.
    rewrite (spec_sum_ext d n N' N) by exact Hag. reflexivity.
Qed.

Lemma density_not_posdef d n M data w refl :
  symmetric n M -> ~ posdef n M -> length w = length data ->
  kernel_density (mkKernel d n M) n n data (Some w) refl None = Err LinAlgError.
Proof.
  intros Hs Hp Hw. unfold kernel_density. cbn [k_ndim k_matrix k_dist bind fst snd].
  rewrite Nat.eqb_refl, Hw, Nat.eqb_refl. cbn [negb bind].
  destruct (minv n M) as [N|] eqn:HN; [|reflexivity].
  destruct (chol n N) as [W|] eqn:HW; [|reflexivity].
  exfalso. apply Hp. apply (whiten_only_posdef n M N W); assumption.
Qed.

(** C08 at the kernel level: the density integrates to the total weight. *)
Lemma density_integral d n M data w base :
  (1 <= n)%nat -> symmetric n M -> posdef n M -> length w = length data ->
  exists f, kernel_density (mkKernel d n M) n n data (Some w) None None = Ok f
    /\ is_tintN n f base (lsum w).
Proof.
  intros Hn Hs Hp Hw.
  destruct (kernel_density_plain d n M data (Some w) Hs Hp) as [N [W [HN [HW [HsN [Hinv [Hd Hk]]]]]]].
  { intros w' E; injection E as <-; exact Hw. }
  pose proof (sqrt_mdet_pos n M Hs Hp) as Hsq.
  pose proof (dist_norm_pos d n Hn) as Hdn.
  eexists. split; [exact Hk|]. cbv beta.
  set (Z := sqrt (Rabs (mdet n M)) * dist_norm d n).
  assert (HZ : 0 < Z) by (apply Rmult_lt_0_compat; assumption).
  assert (H : is_tintN n (fun x => sumf (fun dw => snd dw * prof d (white_dist2 n W x (fst dw))) (combine data w))
                base (sumf (fun dw => snd dw * Z) (combine data w))).
  { apply (tintN_sumf n (fun (dw : pt * R) x => snd dw * prof d (white_dist2 n W x (fst dw))) (fun dw => snd dw * Z)).
    intros dw _. apply tintN_scal.
    apply (prof_quad_integral d n M N W (fst dw) base); assumption. }
  rewrite sumf_scal_r in H.
  assert (Es : sumf snd (combine data w) = lsum w).
  { unfold sumf. f_equal. clear -Hw. revert w Hw. induction data as [|x xs IH]; intros [|y ys] H; try discriminate; [reflexivity|].
    simpl. f_equal. apply IH. simpl in H; congruence. }
  rewrite Es in H. apply (tintN_scal n (/ Z)) in H.
  replace (/ Z * (lsum w * Z)) with (lsum w) in H by (field; lra).
  apply tintN_ext with (2 := H). intros x. unfold Rdiv. rewrite Rmult_comm. f_equal.
  unfold eval_numba. apply sumf_ext; intros; ring.
Qed.
