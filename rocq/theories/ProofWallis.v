(** One-dimensional integrals of (1-t^2)^(q/2) and of the Gaussian. *)
From Coquelicot Require Import Coquelicot.
From Verif Require Import Base ModelLinAlg SpecIntegral ProofIntegral.

Lemma cont_of_derive (f : R -> R) (x : R) : ex_derive f x -> continuous f x.
Proof. apply (ex_derive_continuous f x). Qed.

(** Wallis numbers C n = integral of cos^n over [-pi/2, pi/2]. *)
Fixpoint wallis (n : nat) : R * R :=   (* (C n, C (n+1)) *)
  match n with
  | O => (PI, 2)
  | S m => let '(c0, c1) := wallis m in (c1, (INR m + 1) / (INR m + 2) * c0)
  end.

Lemma is_derive_sincos n x :
  is_derive (fun t => sin t * cos t ^ (S n)) x
            ((INR n + 2) * cos x ^ (S (S n)) - (INR n + 1) * cos x ^ n).
Proof.
  auto_derive; [exact I|].
  replace (pred (S n)) with n by reflexivity.
  assert (Hs : sin x * sin x = 1 - cos x * cos x).
  { pose proof (sin2_cos2 x) as H. unfold Rsqr in H. lra. }
  replace (INR (S n)) with (INR n + 1) by (rewrite S_INR; reflexivity).
  simpl pow.
  transitivity (cos x * cos x * cos x ^ n - (INR n + 1) * (sin x * sin x) * cos x ^ n).
  - destruct n; [simpl; ring|]. rewrite S_INR. ring.
  - rewrite Hs. ring.
Qed.

Lemma continuous_cospow n (x : R) : continuous (fun t : R => cos t ^ n) x.
Proof. apply cont_of_derive. auto_derive. exact I. Qed.

Lemma wallis_step n c : is_RInt (fun t => cos t ^ n) (- (PI / 2)) (PI / 2) c ->
  is_RInt (fun t => cos t ^ (S (S n))) (- (PI / 2)) (PI / 2) ((INR n + 1) / (INR n + 2) * c).
Proof.
  intros H.
  assert (HD : is_RInt (fun t => (INR n + 2) * cos t ^ (S (S n)) - (INR n + 1) * cos t ^ n)
                 (- (PI / 2)) (PI / 2)
                 (sin (PI / 2) * cos (PI / 2) ^ (S n) - sin (- (PI / 2)) * cos (- (PI / 2)) ^ (S n))).
  { apply (is_RInt_derive (fun t => sin t * cos t ^ (S n))).
    - intros x _. apply is_derive_sincos.
    - intros x _. apply cont_of_derive. auto_derive. exact I. }
  rewrite cos_neg, cos_PI2 in HD.
  replace (sin (PI / 2) * 0 ^ S n - sin (- (PI / 2)) * 0 ^ S n) with 0 in HD by (simpl; ring).
  pose proof (pos_INR n) as Hn.
  assert (H2 : is_RInt (fun t => (INR n + 1) * cos t ^ n) (- (PI / 2)) (PI / 2) ((INR n + 1) * c)).
  { apply (is_RInt_scal (fun t => cos t ^ n) _ _ (INR n + 1) c H). }
  pose proof (is_RInt_plus _ _ _ _ _ _ HD H2) as H3.
  pose proof (is_RInt_scal _ _ _ (/ (INR n + 2)) _ H3) as H4.
  replace ((INR n + 1) / (INR n + 2) * c) with (scal (/ (INR n + 2)) (plus 0 ((INR n + 1) * c))).
  - apply is_RInt_ext with (2 := H4). intros x _.
    unfold scal, plus; simpl. unfold mult; simpl. field. lra.
  - unfold scal, plus; simpl. unfold mult; simpl. field. lra.
Qed.

Lemma wallis_spec n :
  is_RInt (fun t => cos t ^ n) (- (PI / 2)) (PI / 2) (fst (wallis n)) /\
  is_RInt (fun t => cos t ^ (S n)) (- (PI / 2)) (PI / 2) (snd (wallis n)).
Proof.
  induction n as [|n [IH1 IH2]].
  - split.
    + assert (H : is_RInt (fun _ : R => 1) (- (PI / 2)) (PI / 2) ((PI / 2 - - (PI / 2)) * 1))
        by exact (is_RInt_const (- (PI / 2)) (PI / 2) (1 : R)).
      replace ((PI / 2 - - (PI / 2)) * 1) with PI in H by field. exact H.
    + assert (H : is_RInt (fun t => cos t ^ 1) (- (PI / 2)) (PI / 2) (sin (PI / 2) - sin (- (PI / 2)))).
      { apply (is_RInt_derive sin).
        - intros x _. rewrite pow_1. apply is_derive_Reals. apply derivable_pt_lim_sin.
        - intros x _. apply continuous_cospow. }
      rewrite sin_neg, sin_PI2 in H. replace (1 - - (1)) with 2 in H by ring. exact H.
  - simpl wallis. destruct (wallis n) as [c0 c1] eqn:E. simpl fst in *; simpl snd in *.
    split; [exact IH2|]. apply wallis_step. exact IH1.
Qed.

(** beta q = integral of (1-t^2)^(q/2) over [-1,1]. *)
Definition betaq (q : nat) : R := snd (wallis q).

Lemma betaq_0 : betaq 0 = 2. Proof. reflexivity. Qed.
Lemma betaq_1 : betaq 1 = PI / 2. Proof. unfold betaq; simpl; field. Qed.
Lemma betaq_SS q : betaq (S (S q)) = (INR q + 2) / (INR q + 3) * betaq q.
Proof.
  unfold betaq. cbn [wallis]. destruct (wallis q) as [c0 c1]. cbn [snd].
  rewrite S_INR. f_equal. f_equal; ring.
Qed.
Lemma betaq_pos q : 0 < betaq q.
Proof.
  assert (H : 0 < betaq q /\ 0 < betaq (S q)).
  { induction q as [|q [IH1 IH2]].
    - rewrite betaq_0, betaq_1. pose proof PI_RGT_0. lra.
    - split; [exact IH2|]. rewrite betaq_SS. apply Rmult_lt_0_compat; [|exact IH1].
      pose proof (pos_INR q). apply Rdiv_lt_0_compat; lra. }
  apply H.
Qed.

Lemma continuous_sqrtpow q (x : R) : continuous (fun t : R => sqrt (1 - t * t) ^ q) x.
Proof.
  assert (H : continuous (fun t : R => sqrt (1 - t * t)) x).
  { apply continuous_comp with (f := fun t : R => 1 - t * t) (g := sqrt).
    - apply cont_of_derive. auto_derive. exact I.
    - apply continuous_sqrt. }
  induction q as [|q IH]; simpl.
  - apply continuous_const.
  - apply (continuous_mult (fun t => sqrt (1 - t * t)) (fun t => sqrt (1 - t * t) ^ q)); assumption.
Qed.

Lemma betaq_spec q : is_RInt (fun t => sqrt (1 - t * t) ^ q) (-1) 1 (betaq q).
Proof.
  pose proof PI_RGT_0 as HPI.
  assert (Hex : ex_RInt (fun t => sqrt (1 - t * t) ^ q) (-1) 1).
  { apply (ex_RInt_continuous (V := R_CompleteNormedModule)). intros; apply continuous_sqrtpow. }
  destruct Hex as [l Hl].
  assert (HC : is_RInt (fun y => scal (cos y) (sqrt (1 - sin y * sin y) ^ q)) (- (PI / 2)) (PI / 2)
            (RInt (fun t => sqrt (1 - t * t) ^ q) (sin (- (PI / 2))) (sin (PI / 2)))).
  { apply (is_RInt_comp (fun t => sqrt (1 - t * t) ^ q) sin cos).
    - intros; apply continuous_sqrtpow.
    - intros x _. split; [apply is_derive_Reals, derivable_pt_lim_sin|].
      apply cont_of_derive. auto_derive. exact I. }
  rewrite sin_neg, sin_PI2 in HC. change (Ropp 1) with (-1) in HC.
  rewrite (is_RInt_unique _ _ _ _ Hl) in HC.
  assert (HC2 : is_RInt (fun t => cos t ^ (S q)) (- (PI / 2)) (PI / 2) l).
  { apply is_RInt_ext with (2 := HC). intros x Hx.
    rewrite Rmin_left, Rmax_right in Hx by lra.
    assert (Hc : 0 <= cos x) by (apply cos_ge_0; lra).
    assert (E : sqrt (1 - sin x * sin x) = cos x).
    { replace (1 - sin x * sin x) with (cos x * cos x).
      - apply sqrt_square; exact Hc.
      - pose proof (sin2_cos2 x) as H. unfold Rsqr in H. lra. }
    rewrite E. reflexivity. }
  destruct (wallis_spec q) as [_ HW].
  assert (l = betaq q) by exact (is_RInt_eq _ _ _ _ _ HC2 HW).
  subst l. exact Hl.
Qed.

(** Profiles of finite kernels: (1-r)^(q/2) for r <= 1, zero beyond. *)
Definition kq (q : nat) (r : R) : R := if Rle_dec r 1 then sqrt (1 - r) ^ q else 0.

Lemma kq_step q r u v : 0 < u ->
  is_tint (fun t => kq q (r + (u * t + v) * (u * t + v))) (betaq q / u * kq (S q) r).
Proof.
  intros Hu.
  assert (H : is_tint (fun t => kq q (r + t * t)) (betaq q * kq (S q) r)).
  { unfold kq at 2. destruct (Rle_dec r 1) as [Hr|Hr].
    - destruct (Req_EM_T r 1) as [->|Hne].
      + (* degenerate: support is one point *)
        rewrite Rminus_eq_0, sqrt_0. simpl pow. rewrite Rmult_0_l, Rmult_0_r.
        apply tint_compact with 0 0; [lra| | |].
        * apply (is_RInt_point (V := R_NormedModule) (fun t => kq q (1 + t * t)) 0).
        * intros x Hx. unfold kq. destruct (Rle_dec _ _) as [H|]; [|reflexivity].
          exfalso. assert (0 < x * x) by nra. lra.
        * intros x Hx. unfold kq. destruct (Rle_dec _ _) as [H|]; [|reflexivity].
          exfalso. assert (0 < x * x) by nra. lra.
      + set (s := sqrt (1 - r)).
        assert (Hs : 0 < s) by (apply sqrt_lt_R0; lra).
        assert (Hss : s * s = 1 - r) by (apply sqrt_sqrt; lra).
        assert (Hout : forall x, s < Rabs x -> kq q (r + x * x) = 0).
        { intros x Hx. unfold kq. destruct (Rle_dec _ _) as [Hc|]; [|reflexivity].
          exfalso. assert (Hx2 : s * s < Rabs x * Rabs x) by nra.
          rewrite <- Rabs_mult, Rabs_pos_eq in Hx2 by nra. lra. }
        apply tint_compact with (- s) s; [lra| | |].
        2:{ intros x Hx. apply Hout. rewrite Rabs_left by lra. lra. }
        2:{ intros x Hx. apply Hout. rewrite Rabs_right by lra. lra. }
        pose proof (is_RInt_comp_lin (fun t => sqrt (1 - t * t) ^ q) (/ s) 0 (- s) s (betaq q)) as HC.
        replace (/ s * - s + 0) with (-1) in HC by (field; lra).
        replace (/ s * s + 0) with 1 in HC by (field; lra).
        specialize (HC (betaq_spec q)).
        apply (is_RInt_scal _ _ _ (s * s ^ q)) in HC.
        replace (betaq q * s ^ S q) with (scal (s * s ^ q) (betaq q))
          by (unfold scal; simpl; unfold mult; simpl; ring).
        apply is_RInt_ext with (2 := HC). intros x Hx.
        rewrite Rmin_left, Rmax_right in Hx by lra.
        unfold scal; simpl; unfold mult; simpl.
        assert (Hxx : x * x <= s * s) by nra.
        unfold kq. destruct (Rle_dec _ _) as [_|Hc]; [|exfalso; apply Hc; lra].
        replace (1 - (r + x * x)) with ((s * s) * (1 - (/ s * x + 0) * (/ s * x + 0))).
        2:{ rewrite Hss at 1. replace (1 - (/ s * x + 0) * (/ s * x + 0)) with (1 - x * x / (s * s)) by (field; lra).
            rewrite Hss. field. lra. }
        assert (H1 : 0 <= 1 - (/ s * x + 0) * (/ s * x + 0)).
        { replace (1 - (/ s * x + 0) * (/ s * x + 0)) with ((s * s - x * x) / (s * s)) by (field; lra).
          apply Rmult_le_pos; [lra|]. apply Rlt_le, Rinv_0_lt_compat. nra. }
        rewrite sqrt_mult by nra. rewrite sqrt_square by lra. rewrite Rpow_mult_distr.
        field. lra.
    - rewrite Rmult_0_r. apply tint_ext with (fun _ => 0); [|apply tint_zero].
      intros x. unfold kq. destruct (Rle_dec _ _) as [Hc|]; [|reflexivity].
      exfalso. assert (0 <= x * x) by nra. lra. }
  replace (betaq q / u * kq (S q) r) with (betaq q * kq (S q) r / u) by (field; lra).
  apply (tint_comp_lin (fun t => kq q (r + t * t)) (betaq q * kq (S q) r) u v Hu H).
Qed.
