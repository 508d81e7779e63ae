(** The standard normal cumulative distribution function and its inverse. *)
From Coquelicot Require Import Coquelicot.
From Verif Require Import Base ModelLinAlg SpecIntegral ProofIntegral ProofWallis ProofGauss SpecNormal.
Open Scope R_scope.

Definition nI (x : R) : R := gI (x / sqrt 2) / sqrt PI.
Definition Phi (x : R) : R := 1 / 2 + nI x.

Lemma s2_pos : 0 < sqrt 2. Proof. apply sqrt_lt_R0; lra. Qed.
Lemma sPI_pos : 0 < sqrt PI. Proof. apply sqrt_lt_R0, PI_RGT_0. Qed.

Lemma nI_derive (x : R) : is_derive nI x (std_normal x).
Proof.
  pose proof s2_pos as H2. pose proof sPI_pos as HP. pose proof PI_RGT_0 as HPI.
  assert (H : is_derive (fun x => gI (x / sqrt 2)) x (/ sqrt 2 * ge (x / sqrt 2))).
  { apply (is_derive_comp gI (fun x => x / sqrt 2) x (ge (x / sqrt 2)) (/ sqrt 2)).
    - apply gI_derive.
    - auto_derive; [exact I|]. ring. }
  apply (is_derive_scal _ _ (/ sqrt PI)) in H.
  assert (E : std_normal x = scal (/ sqrt PI) (/ sqrt 2 * ge (x / sqrt 2))).
  { unfold std_normal, ge, scal; simpl; unfold mult; simpl. rewrite sqrt_mult by lra.
    replace (x / sqrt 2 * (x / sqrt 2)) with (x * x / (sqrt 2 * sqrt 2)) by (field; lra).
    rewrite sqrt_sqrt by lra. replace (- (x * x) / 2) with (- (x * x / 2)) by field. field. split; lra. }
  rewrite E. apply is_derive_ext with (2 := H). intros t. unfold nI, scal; simpl; unfold mult; simpl. field. lra.
Qed.

Lemma std_normal_cont (x : R) : continuous std_normal x.
Proof.
  pose proof PI_RGT_0. apply cont_of_derive. unfold std_normal. auto_derive.
  exact I.
Qed.
Lemma std_normal_pos x : 0 < std_normal x.
Proof. unfold std_normal. apply Rdiv_lt_0_compat; [apply exp_pos|]. apply sqrt_lt_R0. pose proof PI_RGT_0. lra. Qed.

Lemma nI_int a b : is_RInt std_normal a b (nI b - nI a).
Proof.
  apply (is_RInt_derive nI std_normal).
  - intros; apply nI_derive.
  - intros; apply std_normal_cont.
Qed.

Lemma nI_incr x y : x < y -> nI x < nI y.
Proof.
  intros H. assert (0 < RInt std_normal x y).
  { apply RInt_gt_0; [exact H|intros; apply std_normal_pos|intros; apply std_normal_cont]. }
  rewrite (is_RInt_unique _ _ _ _ (nI_int x y)) in H0. lra.
Qed.
Lemma nI_odd x : nI (- x) = - nI x.
Proof.
  unfold nI. replace (- x / sqrt 2) with (- (x / sqrt 2)) by (unfold Rdiv; ring). rewrite gI_odd.
  unfold Rdiv; ring.
Qed.
Lemma nI_0 : nI 0 = 0. Proof. pose proof (nI_odd 0) as H. rewrite Ropp_0 in H. lra. Qed.

Lemma nI_lim eps : 0 < eps -> exists M, 0 < M /\ forall x, M < x -> 1 / 2 - eps < nI x <= 1 / 2.
Proof.
  intros He. pose proof sPI_pos as HP. pose proof s2_pos as H2.
  set (K := 4 / (sqrt PI * sqrt PI)). assert (HK : 0 < K) by (apply Rdiv_lt_0_compat; nra).
  exists (1 + K / eps). assert (HKe : 0 < K / eps) by (apply Rdiv_lt_0_compat; lra). split; [lra|].
  intros x Hx. set (y := x / sqrt 2). assert (Hy : 0 < y) by (apply Rdiv_lt_0_compat; lra).
  destruct (gI_bounds y Hy) as [[_ Hu] Hl].
  assert (Eyy : y * y = x * x / 2).
  { unfold y. replace (x / sqrt 2 * (x / sqrt 2)) with (x * x / (sqrt 2 * sqrt 2)) by (field; lra).
    rewrite sqrt_sqrt by lra. reflexivity. }
  unfold nI. fold y. split.
  - assert (Hb : / (y * y) * (2 / sqrt PI) < eps * sqrt PI).
    { rewrite Eyy. apply Rmult_lt_reg_r with (x * x / sqrt PI); [apply Rdiv_lt_0_compat; nra|].
      replace (/ (x * x / 2) * (2 / sqrt PI) * (x * x / sqrt PI)) with K by (unfold K; field; split; [lra|nra]).
      replace (eps * sqrt PI * (x * x / sqrt PI)) with (eps * (x * x)) by (field; lra).
      assert (HKx : K / eps < x * x) by nra.
      apply Rmult_lt_reg_r with (/ eps); [apply Rinv_0_lt_compat; exact He|].
      replace (eps * (x * x) * / eps) with (x * x) by (field; lra). exact HKx. }
    apply Rmult_lt_reg_r with (sqrt PI); [exact HP|].
    replace (gI y / sqrt PI * sqrt PI) with (gI y) by (field; lra). lra.
  - apply Rmult_le_reg_r with (sqrt PI); [exact HP|].
    replace (gI y / sqrt PI * sqrt PI) with (gI y) by (field; lra). lra.
Qed.

Lemma nI_lt_half x : nI x < 1 / 2.
Proof.
  destruct (nI_lim 1 Rlt_0_1) as [M [HM H]]. set (y := Rmax (x + 1) (M + 1)).
  pose proof (Rmax_l (x + 1) (M + 1)). pose proof (Rmax_r (x + 1) (M + 1)).
  apply Rlt_le_trans with (nI y); [apply nI_incr; unfold y; lra|]. apply H. unfold y. lra.
Qed.

Lemma Phi_bounds x : 0 < Phi x < 1.
Proof.
  unfold Phi. pose proof (nI_lt_half x). pose proof (nI_lt_half (- x)) as H1. rewrite nI_odd in H1. lra.
Qed.
Lemma Phi_incr x y : x < y -> Phi x < Phi y.
Proof. intros H. unfold Phi. pose proof (nI_incr x y H). lra. Qed.
Lemma Phi_0 : Phi 0 = 1 / 2. Proof. unfold Phi. rewrite nI_0. lra. Qed.
Lemma Phi_opp x : Phi (- x) = 1 - Phi x. Proof. unfold Phi. rewrite nI_odd. lra. Qed.
Lemma Phi_lt_inv x y : Phi x < Phi y -> x < y.
Proof.
  intros H. destruct (Rtotal_order x y) as [|[->|Hgt]]; [assumption|lra|].
  pose proof (Phi_incr y x Hgt). lra.
Qed.
Lemma Phi_le_inv x y : Phi x <= Phi y -> x <= y.
Proof.
  intros H. destruct (Rle_lt_dec x y) as [|Hgt]; [assumption|]. pose proof (Phi_incr y x Hgt). lra.
Qed.

Lemma Phi_ok x : Phi_is x (Phi x).
Proof.
  intros P [[eps Heps] HP]. destruct (nI_lim eps Heps) as [M [HM H]].
  apply (Filter_prod _ _ _ (fun a => a < - M) (fun b => b = x)).
  - exists (- M). intros y Hy; exact Hy.
  - reflexivity.
  - intros a b Ha ->. exists (nI x - nI a). split; [apply nI_int|].
    apply HP. change (Rabs (nI x - nI a - Phi x) < eps). unfold Phi.
    specialize (H (- a) ltac:(lra)). rewrite nI_odd in H. unfold Rabs; destruct (Rcase_abs _); lra.
Qed.

Lemma Phi_unique x p : Phi_is x p -> p = Phi x.
Proof.
  intros H. destruct (Req_EM_T p (Phi x)) as [|Hne]; [assumption|exfalso].
  assert (He : 0 < Rabs (p - Phi x) / 2).
  { assert (0 < Rabs (p - Phi x)) by (apply Rabs_pos_lt; lra). lra. }
  set (e := Rabs (p - Phi x) / 2) in *.
  specialize (H (fun y => Rabs (y - p) < e)).
  assert (Hl : locally p (fun y => Rabs (y - p) < e)).
  { exists (mkposreal e He). intros y Hy. exact Hy. }
  specialize (H Hl). destruct H as [Q R0 HQ HR H]. destruct HQ as [M1 HM1].
  destruct (nI_lim e He) as [M [HM HL]].
  set (a := - (Rmax (- M1) M + 1)). pose proof (Rmax_l (- M1) M). pose proof (Rmax_r (- M1) M).
  destruct (H a x) as [y [Hy1 Hy2]]; [apply HM1; unfold a; lra|exact HR|]. cbn [fst snd] in Hy1.
  pose proof (is_RInt_eq _ _ _ _ _ Hy1 (nI_int a x)) as ->.
  specialize (HL (- a) ltac:(unfold a; lra)). rewrite nI_odd in HL.
  revert Hy2. unfold e, Phi in *. unfold Rabs in *.
  destruct (Rcase_abs (nI x - nI a - p)); destruct (Rcase_abs (p - (1 / 2 + nI x))); lra.
Qed.

(** The inverse exists. *)
Lemma nI_cont x : continuity_pt nI x.
Proof. apply continuity_pt_filterlim. apply cont_of_derive. exists (std_normal x). apply nI_derive. Qed.

Definition ppf_set (p : R) (x : R) : Prop := Phi x <= p.
Lemma ppf_bound p : p < 1 -> bound (ppf_set p).
Proof.
  intros H. destruct (nI_lim (1 - p)) as [M [HM HL]]; [lra|]. exists (M + 1). intros x Hx.
  unfold ppf_set in Hx. apply Phi_le_inv. specialize (HL (M + 1) ltac:(lra)). unfold Phi in *. lra.
Qed.
Lemma ppf_nonempty p : 0 < p -> exists x, ppf_set p x.
Proof.
  intros H. destruct (nI_lim p H) as [M [HM HL]]. exists (- (M + 1)). unfold ppf_set, Phi.
  rewrite nI_odd. specialize (HL (M + 1) ltac:(lra)). lra.
Qed.
Definition the_ppf (p : R) : R :=
  match Rlt_dec 0 p with
  | left H0 => match Rlt_dec p 1 with
               | left H1 => proj1_sig (completeness (ppf_set p) (ppf_bound p H1) (ppf_nonempty p H0))
               | right _ => 0
               end
  | right _ => 0
  end.

Lemma the_ppf_ok p : 0 < p < 1 -> Phi (the_ppf p) = p.
Proof.
  intros [H0 H1]. unfold the_ppf. destruct (Rlt_dec 0 p) as [H0'|]; [|lra].
  destruct (Rlt_dec p 1) as [H1'|]; [|lra].
  destruct (completeness _ _ _) as [m [Hub Hlub]]. cbn [proj1_sig].
  destruct (ppf_nonempty p H0) as [a Ha]. 
  destruct (nI_lim (1 - p)) as [M [HM HL]]; [lra|].
  assert (Hb : p < Phi (M + 1)) by (unfold Phi; specialize (HL (M + 1) ltac:(lra)); lra).
  assert (Hab : a < M + 1) by (apply Phi_lt_inv; unfold ppf_set in Ha; lra).
  (* a preimage by the intermediate value theorem *)
  assert (Hz : exists z, Phi z = p).
  { destruct (Req_dec (Phi a) p) as [E|Hne]; [exists a; exact E|]. unfold ppf_set in Ha.
    assert (Hc : continuity (fun x => Phi x - p)).
    { intros x. apply continuity_pt_minus; [|apply continuity_pt_const; intros ? ?; reflexivity].
      unfold Phi. apply continuity_pt_plus; [apply continuity_pt_const; intros ? ?; reflexivity|apply nI_cont]. }
    destruct (IVT (fun x => Phi x - p) a (M + 1) Hc Hab) as [z [_ Hz]]; [lra|lra|]. exists z. lra. }
  destruct Hz as [z Hz]. assert (Hzm : z <= m) by (apply Hub; unfold ppf_set; lra).
  assert (Hmz : m <= z). { apply Hlub. intros x Hx. unfold ppf_set in Hx. apply Phi_le_inv. lra. }
  replace m with z by lra. exact Hz.
Qed.

Lemma ppf_exists : is_ppf the_ppf.
Proof. intros p Hp. rewrite <- (the_ppf_ok p Hp) at 2. apply Phi_ok. Qed.

Lemma ppf_sign ppf p : is_ppf ppf -> 0 < p < 1 -> (0 <= ppf p <-> 1 / 2 <= p) /\ (ppf p < 0 <-> p < 1 / 2).
Proof.
  intros H Hp. pose proof (Phi_unique _ _ (H p Hp)) as E. pose proof Phi_0 as E0. split; split; intros G.
  - rewrite E, <- E0. destruct (Req_dec (ppf p) 0) as [->|]; [lra|]. left. apply Phi_incr. lra.
  - apply Phi_le_inv. lra.
  - rewrite E, <- E0. apply Phi_incr. exact G.
  - apply Phi_lt_inv. lra.
Qed.

(** A crude lower bound used for a concrete witness: ppf(3/8) > -1. *)
Lemma Phi_m1 : Phi (-1) < 3 / 8.
Proof.
  unfold Phi. replace (-1) with (- (1)) by ring. rewrite nI_odd.
  assert (H : (1 - 0) * (exp (- (1 / 2)) / sqrt (2 * PI)) <= nI 1 - nI 0).
  { apply (is_RInt_le (fun _ => exp (- (1 / 2)) / sqrt (2 * PI)) std_normal 0 1).
    - lra.
    - exact (is_RInt_const 0 1 (exp (- (1 / 2)) / sqrt (2 * PI) : R)).
    - apply nI_int.
    - intros x Hx. unfold std_normal. apply Rmult_le_compat_r.
      + left. apply Rinv_0_lt_compat, sqrt_lt_R0. pose proof PI_RGT_0. lra.
      + destruct (Req_dec (x * x) 1) as [E|Hne]; [right; f_equal; rewrite E; field|].
        left. apply exp_increasing. nra. }
  rewrite nI_0 in H.
  assert (He : 1 / 2 <= exp (- (1 / 2))) by (pose proof (exp_ineq1_le (- (1 / 2))); lra).
  assert (Hs : sqrt (2 * PI) < 4).
  { pose proof PI_4 as P4. pose proof PI_RGT_0. rewrite <- (sqrt_square 4) by lra. apply sqrt_lt_1; lra. }
  assert (Hs0 : 0 < sqrt (2 * PI)) by (apply sqrt_lt_R0; pose proof PI_RGT_0; lra).
  assert (Hd : 1 / 8 < exp (- (1 / 2)) / sqrt (2 * PI)).
  { apply Rmult_lt_reg_r with (sqrt (2 * PI)); [exact Hs0|].
    replace (exp (- (1 / 2)) / sqrt (2 * PI) * sqrt (2 * PI)) with (exp (- (1 / 2))) by (field; lra). lra. }
  lra.
Qed.
