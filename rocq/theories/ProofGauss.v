(** The Gaussian integral, from differentiation under the integral sign. *)
From Coquelicot Require Import Coquelicot.
From Verif Require Import Base ModelLinAlg SpecIntegral ProofIntegral ProofWallis.

Definition ge (t : R) : R := exp (- (t * t)).
Definition gI (x : R) : R := RInt ge 0 x.
Definition gk (x t : R) : R := exp (- (x * x) * (1 + t * t)) / (1 + t * t).
Definition gG (x : R) : R := RInt (fun t => gk x t) 0 1.

Lemma ge_cont (x : R) : continuous ge x.
Proof. apply cont_of_derive. unfold ge. auto_derive. exact I. Qed.
Lemma ge_pos x : 0 < ge x. Proof. apply exp_pos. Qed.
Lemma ge_ex (a b : R) : ex_RInt ge a b.
Proof. apply (ex_RInt_continuous (V := R_CompleteNormedModule)). intros; apply ge_cont. Qed.
Lemma one_plus_sq t : 0 < 1 + t * t. Proof. nra. Qed.

Lemma gI_derive (x : R) : is_derive gI x (ge x).
Proof.
  apply (is_derive_RInt ge gI 0 x).
  - exists (mkposreal 1 Rlt_0_1). intros y _. apply (RInt_correct ge 0 y), ge_ex.
  - apply ge_cont.
Qed.

Lemma gk_derive (x t : R) : is_derive (fun u => gk u t) x (- 2 * x * exp (- (x * x) * (1 + t * t))).
Proof.
  unfold gk. pose proof (one_plus_sq t). auto_derive; [lra|]. field. lra.
Qed.

Lemma gk_cont (x t : R) : continuous (fun t => gk x t) t.
Proof.
  apply cont_of_derive. unfold gk. pose proof (one_plus_sq t). auto_derive. lra.
Qed.

Lemma cont2d x t : continuity_2d_pt (fun u v => Derive (fun z => gk z v) u) x t.
Proof.
  apply continuity_2d_pt_ext with (fun u v => (- 2 * u) * exp (- (u * u) * (1 + v * v))).
  - intros u v. symmetry. apply is_derive_unique. apply gk_derive.
  - assert (Hx : continuity_2d_pt (fun u _ => u) x t) by apply continuity_2d_pt_id1.
    assert (Ht : continuity_2d_pt (fun _ v => v) x t) by apply continuity_2d_pt_id2.
    assert (Hexp : continuity_2d_pt (fun u v => - (u * u) * (1 + v * v)) x t).
    { apply continuity_2d_pt_mult.
      - apply continuity_2d_pt_opp. apply continuity_2d_pt_mult; assumption.
      - apply continuity_2d_pt_plus; [apply continuity_2d_pt_const|].
        apply continuity_2d_pt_mult; assumption. }
    apply continuity_2d_pt_mult.
    + apply continuity_2d_pt_mult; [apply continuity_2d_pt_const|assumption].
    + apply continuity_1d_2d_pt_comp with (f := exp) (g := fun u v => - (u * u) * (1 + v * v)).
      * apply derivable_continuous_pt, derivable_pt_exp.
      * exact Hexp.
Qed.

Lemma gG_derive (x : R) : is_derive gG x (- 2 * ge x * gI x).
Proof.
  pose proof (is_derive_RInt_param gk 0 1 x) as H.
  assert (E : RInt (fun t => Derive (fun u => gk u t) x) 0 1 = - 2 * ge x * gI x).
  { assert (HC : is_RInt (fun y => scal x (ge (x * y + 0))) 0 1 (RInt ge (x * 0 + 0) (x * 1 + 0))).
    { apply (is_RInt_comp_lin ge x 0 0 1). apply (RInt_correct ge), ge_ex. }
    replace (x * 0 + 0) with 0 in HC by ring. replace (x * 1 + 0) with x in HC by ring.
    apply (is_RInt_scal _ _ _ (- 2 * ge x)) in HC.
    apply is_RInt_unique.
    apply is_RInt_ext with (2 := HC). intros t _.
    assert (ED : Derive (fun u : R => gk u t) x = - 2 * x * exp (- (x * x) * (1 + t * t)))
      by (apply is_derive_unique; apply gk_derive).
    etransitivity; [|symmetry; exact ED].
    unfold scal; simpl; unfold mult; simpl. unfold ge.
    replace (- (x * x) * (1 + t * t)) with (- (x * x) + - ((x * t + 0) * (x * t + 0))) by ring.
    rewrite exp_plus. ring. }
  rewrite <- E. apply H.
  - exists (mkposreal 1 Rlt_0_1). intros y _ t _. eexists; apply gk_derive.
  - intros t _. apply cont2d.
  - exists (mkposreal 1 Rlt_0_1). intros y _.
    apply (ex_RInt_continuous (V := R_CompleteNormedModule)). intros; apply gk_cont.
Qed.

Lemma const_of_derive0 (f : R -> R) : (forall x, is_derive f x 0) -> forall x, f x = f 0.
Proof.
  intros H x.
  destruct (MVT_gen f 0 x (fun _ => 0)) as [c [_ Hc]].
  - intros; apply H.
  - intros y _. apply derivable_continuous_pt. exists 0. apply is_derive_Reals, H.
  - lra.
Qed.

Lemma gG_0 : gG 0 = PI / 4.
Proof.
  unfold gG. apply is_RInt_unique.
  replace (PI / 4) with (minus (atan 1) (atan 0)).
  - apply is_RInt_ext with (fun t => / (1 + Rsqr t)).
    + intros t _. unfold gk. replace (- (0 * 0) * (1 + t * t)) with 0 by ring. rewrite exp_0.
      unfold Rsqr, Rdiv. rewrite Rmult_1_l. reflexivity.
    + apply (is_RInt_derive atan).
      * intros y _. apply is_derive_Reals. rewrite Rsqr_pow2. exact (derivable_pt_lim_atan y).
      * intros y _. apply cont_of_derive. unfold Rsqr. pose proof (one_plus_sq y). auto_derive. lra.
  - rewrite atan_0, atan_1. unfold minus, plus, opp; simpl. ring.
Qed.

Lemma gI_sq x : gI x * gI x + gG x = PI / 4.
Proof.
  assert (H : forall y, is_derive (fun z => gI z * gI z + gG z) y 0).
  { intros y.
    assert (H1 : is_derive (fun z => gI z * gI z) y (ge y * gI y + gI y * ge y)).
    { apply (is_derive_mult gI gI y (ge y) (ge y)); try apply gI_derive. intros; apply Rmult_comm. }
    pose proof (is_derive_plus _ _ _ _ _ H1 (gG_derive y)) as H2.
    replace 0 with (plus (ge y * gI y + gI y * ge y) (- 2 * ge y * gI y)); [exact H2|].
    unfold plus; simpl; ring. }
  rewrite (const_of_derive0 _ H x). rewrite gG_0.
  assert (E : gI 0 = 0) by exact (RInt_point (V := R_CompleteNormedModule) 0 ge). rewrite E. ring.
Qed.

Lemma gG_bounds x : 0 <= gG x <= ge x.
Proof.
  assert (Hex : ex_RInt (fun t => gk x t) 0 1).
  { apply (ex_RInt_continuous (V := R_CompleteNormedModule)). intros; apply gk_cont. }
  split.
  - apply RInt_ge_0; [lra|exact Hex|]. intros t _. unfold gk.
    apply Rlt_le, Rdiv_lt_0_compat; [apply exp_pos|apply one_plus_sq].
  - assert (Hc : is_RInt (fun _ : R => ge x) 0 1 (ge x)).
    { assert (H : is_RInt (fun _ : R => ge x) 0 1 ((1 - 0) * ge x)) by exact (is_RInt_const 0 1 (ge x : R)).
      replace ((1 - 0) * ge x) with (ge x) in H by ring. exact H. }
    apply (is_RInt_le (fun t => gk x t) (fun _ => ge x) 0 1 _ _ Rle_0_1 (RInt_correct _ _ _ Hex) Hc).
    intros t Ht. unfold gk, ge. pose proof (one_plus_sq t).
    apply Rle_trans with (exp (- (x * x)) / (1 + t * t)).
    + apply Rmult_le_compat_r; [apply Rlt_le, Rinv_0_lt_compat; lra|].
      destruct (Req_EM_T (x * x) 0) as [E|E].
      * rewrite E. right. f_equal. ring.
      * destruct (Req_EM_T t 0) as [->|Ht0]; [right; f_equal; ring|].
        left. apply exp_increasing. assert (0 < x * x) by nra. assert (0 < t * t) by nra. nra.
    + pose proof (exp_pos (- (x * x))). unfold Rdiv. rewrite <- (Rmult_1_r (exp (- (x * x)))) at 2.
      apply Rmult_le_compat_l; [lra|]. rewrite <- Rinv_1. apply Rinv_le_contravar; [lra|]. nra.
Qed.

Lemma ge_small x : 0 < x -> ge x < / (x * x).
Proof.
  intros Hx. unfold ge. rewrite exp_Ropp. apply Rinv_lt_contravar.
  - apply Rmult_lt_0_compat; [nra|apply exp_pos].
  - assert (H : 1 + x * x < exp (x * x)) by (apply exp_ineq1; nra). lra.
Qed.

Lemma gI_bounds x : 0 < x -> 0 < gI x <= sqrt PI / 2 /\ sqrt PI / 2 - gI x <= / (x * x) * (2 / sqrt PI).
Proof.
  intros Hx. pose proof PI_RGT_0 as HPI.
  assert (Hs : 0 < sqrt PI) by (apply sqrt_lt_R0; exact HPI).
  assert (Hss : sqrt PI * sqrt PI = PI) by (apply sqrt_sqrt; lra).
  assert (H0 : 0 < gI x).
  { unfold gI. apply RInt_gt_0; [exact Hx|intros; apply ge_pos|intros; apply ge_cont]. }
  pose proof (gI_sq x) as Hsq. destruct (gG_bounds x) as [HG1 HG2]. pose proof (ge_small x Hx) as Hge.
  assert (Hle : gI x <= sqrt PI / 2).
  { apply Rnot_lt_le. intros Hc. assert (sqrt PI / 2 * (sqrt PI / 2) < gI x * gI x) by nra. nra. }
  split; [lra|].
  assert (Hd : (sqrt PI / 2 - gI x) * (sqrt PI / 2 + gI x) = gG x) by nra.
  assert (Hg : gG x <= / (x * x)) by lra.
  apply Rmult_le_reg_r with (sqrt PI / 2); [lra|].
  replace (/ (x * x) * (2 / sqrt PI) * (sqrt PI / 2)) with (/ (x * x)) by (field; split; lra).
  apply Rle_trans with ((sqrt PI / 2 - gI x) * (sqrt PI / 2 + gI x)); [|lra].
  apply Rmult_le_compat_l; lra.
Qed.

Lemma gI_odd x : gI (- x) = - gI x.
Proof.
  unfold gI.
  assert (H : is_RInt (fun y => scal (-1) (ge (-1 * y + 0))) 0 x (RInt ge (-1 * 0 + 0) (-1 * x + 0))).
  { apply (is_RInt_comp_lin ge (-1) 0 0 x). apply (RInt_correct ge), ge_ex. }
  replace (-1 * 0 + 0) with 0 in H by ring. replace (-1 * x + 0) with (- x) in H by ring.
  apply is_RInt_opp in H.
  assert (H2 : is_RInt ge 0 x (opp (RInt ge 0 (- x)))).
  { apply is_RInt_ext with (2 := H). intros y _. unfold opp, scal; simpl; unfold mult; simpl.
    unfold ge. replace ((-1 * y + 0) * (-1 * y + 0)) with (y * y) by ring. ring. }
  assert (H3 : is_RInt ge 0 x (RInt ge 0 x)) by (apply (RInt_correct ge), ge_ex).
  pose proof (is_RInt_eq _ _ _ _ _ H2 H3) as H4. unfold opp in H4; simpl in H4. lra.
Qed.

Theorem gauss_integral : is_tint ge (sqrt PI).
Proof.
  rewrite tint_iff. intros eps Heps.
  pose proof PI_RGT_0 as HPI.
  assert (Hs : 0 < sqrt PI) by (apply sqrt_lt_R0; exact HPI).
  set (K := 2 / sqrt PI). assert (HK : 0 < K) by (apply Rdiv_lt_0_compat; lra).
  set (M := 1 + 4 * K / eps).
  assert (HKe : 0 < 4 * K / eps) by (apply Rdiv_lt_0_compat; lra).
  assert (HM : 1 < M) by (unfold M; lra).
  assert (Hb : forall x, M < x -> Rabs (gI x - sqrt PI / 2) < eps / 2).
  { intros x Hx. destruct (gI_bounds x) as [[H1 H2] H3]; [lra|]. fold K in H3.
    rewrite Rabs_left1 by lra.
    assert (Hxx : 4 * K / eps < x * x).
    { apply Rlt_trans with M; [unfold M; lra|]. nra. }
    assert (/ (x * x) * K < eps / 2).
    { apply Rmult_lt_reg_l with (x * x); [nra|].
      rewrite <- Rmult_assoc, Rinv_r, Rmult_1_l by nra.
      apply Rlt_trans with (4 * K / eps * (eps / 2)).
      - replace (4 * K / eps * (eps / 2)) with (2 * K) by (field; lra). lra.
      - apply Rmult_lt_compat_r; lra. }
    lra. }
  exists M. intros a b Ha Hbb.
  exists (gI b - gI a). split.
  - assert (H : is_RInt ge a b (RInt ge a b)) by (apply (RInt_correct ge), ge_ex).
    assert (E : RInt ge a b = gI b - gI a).
    { assert (H1 : is_RInt ge 0 a (gI a)) by (apply (RInt_correct ge), ge_ex).
      pose proof (is_RInt_Chasles _ _ _ _ _ _ H1 H) as H2.
      assert (H3 : is_RInt ge 0 b (gI b)) by (apply (RInt_correct ge), ge_ex).
      pose proof (is_RInt_eq _ _ _ _ _ H2 H3) as H4. unfold plus in H4; simpl in H4. lra. }
    rewrite <- E. exact H.
  - pose proof (Hb b Hbb) as H1. pose proof (Hb (- a) ltac:(lra)) as H2.
    rewrite gI_odd in H2.
    replace (gI b - gI a - sqrt PI) with ((gI b - sqrt PI / 2) + (- gI a - sqrt PI / 2)) by field.
    eapply Rle_lt_trans; [apply Rabs_triang|]. lra.
Qed.

(** In the form used by the kernel: exp(-(r + (u t + v)^2)/2). *)
Lemma gauss_step r u v : 0 < u ->
  is_tint (fun t => exp (- (r + (u * t + v) * (u * t + v)) / 2)) (sqrt (2 * PI) / u * exp (- r / 2)).
Proof.
  intros Hu. pose proof PI_RGT_0 as HPI.
  assert (H2 : 0 < sqrt 2) by (apply sqrt_lt_R0; lra).
  assert (H22 : sqrt 2 * sqrt 2 = 2) by (apply sqrt_sqrt; lra).
  assert (H1 : is_tint (fun x => ge ((u / sqrt 2) * x + v / sqrt 2)) (sqrt PI / (u / sqrt 2))).
  { apply tint_comp_lin; [apply Rdiv_lt_0_compat; lra|apply gauss_integral]. }
  apply (tint_scal (exp (- r / 2))) in H1.
  replace (sqrt (2 * PI) / u * exp (- r / 2)) with (exp (- r / 2) * (sqrt PI / (u / sqrt 2))).
  2:{ rewrite sqrt_mult by lra. field. split; lra. }
  apply tint_ext with (2 := H1). intros x. unfold ge. rewrite <- exp_plus. f_equal.
  replace ((u / sqrt 2 * x + v / sqrt 2) * (u / sqrt 2 * x + v / sqrt 2))
    with ((u * x + v) * (u * x + v) / (sqrt 2 * sqrt 2)) by (field; lra).
  rewrite H22. field.
Qed.
